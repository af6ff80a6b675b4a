(** Saving the result of an analysis: the objects of the graph (Graph_model) as
    the saved map (Persist_model) sees them.
    Sources: pyprom/domain_map.py:244-265 and the [to_dict] methods it calls. *)
From Verif Require Import Graph_model Persist_model.

Section store.
  Variable m : datamap.
  (** The ids of the objects (summit.py:71, saddle.py:103, runoff.py:52,
      linker.py:44-47). *)
  Variables su_name sa_name ln_name : nat -> string.
  (** The perimeter of a flat area: its points, whether it is at the border, and
      the edge points; equalheight.py:85-95 always makes one with a list of edge
      points. *)
  Variable rim_of : feature -> perimeter * bool * list pte.

  (** The [multipoint] of a feature. *)
  Definition area (f : feature) : option multi :=
    if decide (ft_multi f = []) then None
    else Some (Multi (ft_multi f) (ft_ele f) (Some (Bounds (rim_of f).1.1 (rim_of f).1.2 (Some (rim_of f).2)))).
  Definition stored_saddle (o : saddle) : psaddle :=
    PSaddle (ft_spot m (sa_feat o)) (ft_edge (sa_feat o)) (ft_edgepts (sa_feat o)) (area (sa_feat o))
      (ft_hpn (sa_feat o)) (map ln_name (sa_links o)) (sa_name <$> sa_parent o) (map sa_name (sa_children o))
      (sa_single o) (sa_basin o) (map sa_name (sa_alts o)) (sa_over o).
  (** The domain of summit [a] with the list [l] of saddles; [pts a] are its
      points. *)
  Definition stored_domain (pts : nat -> list pte) (a : nat) (l : list nat) : pdomain :=
    PDomain (su_name a) (map sa_name l) (pts a).
  Definition stored_summit (pts : nat -> list pte) (a : nat) (u : summit) : psummit :=
    PSummit (ft_spot m (su_feat u)) (ft_edge (su_feat u)) (ft_edgepts (su_feat u)) (area (su_feat u))
      (map ln_name (su_links u)) (stored_domain pts a <$> su_domain u).
  Definition stored_link (l : link) : plink := PLink (su_name (ln_summit l)) (sa_name (ln_saddle l)) (ln_disq l).

  (** The objects with the numbers [l], with their names. *)
  Definition named {A B} (name : nat -> string) (get : nat -> option A) (put : nat -> A -> B) (l : list nat) : list (string * B) :=
    omap (fun i => (fun a => (name i, put i a)) <$> get i) l.
  (** The containers of the map [d]; [doms] lists the summits of the set of
      domains in the order of the set. *)
  Definition store (d : dmap) (doms : list nat) (pts : nat -> list pte) : pmap :=
    let w := mp_world d in
    PMap (named su_name (fun a => w_summits w !! a) (stored_summit pts) (mp_summits d))
         (named sa_name (fun i => w_saddles w !! i) (fun _ => stored_saddle) (mp_saddles d))
         (named sa_name (fun i => w_saddles w !! i) (fun _ => stored_saddle) (mp_runoffs d))
         (named ln_name (fun k => w_links w !! k) (fun _ => stored_link) (mp_linkers d))
         (omap (fun a => u ← w_summits w !! a; stored_domain pts a <$> su_domain u) doms).
End store.
