(** The objects of a loaded map as a graph: what the functions that work on the
    graph (Graph_model, Basin_model, Divide_model) see after
    /repo/pyprom/domain_map.py:211-242 [from_dict].  The objects are numbered in
    the order in which the map lists them, the saddles before the runoffs. *)
From Verif Require Import Graph_model Persist_model.

(** Objects are found by id in a dict that is filled in the order of the list
    (containers/spot_elevation.py:47); of several with one id the last
    counts. *)
Fixpoint last_place (k : string) (l : list string) : option nat :=
  match l with
  | [] => None
  | x :: r =>
      match last_place k r with
      | Some n => Some (S n)
      | None => if decide (x = k) then Some O else None
      end
  end.
(** The number of the object; references of a loaded map always lead to one, the
    other case gives a number no object has. *)
Definition place (l : list string) (k : string) : nat := default (length l) (last_place k l).

Section revive.
  (** A loaded feature has a position but no cell; any choice of cells will do. *)
  Variable cell_of : spot -> xy.
  Variable p : pmap.
  Let su_no := place (map fst (pm_summits p)).
  Let sa_no := place (map fst (pm_saddles p ++ pm_runoffs p)).
  Let ln_no := place (map fst (pm_linkers p)).

  Definition revive_summit (u : psummit) : summit :=
    Summit (Feat KSummit (cell_of (pu_at u)) (sp_ele (pu_at u)) (from_option mu_points [] (pu_multi u)) (pu_edge u) (pu_edgepts u) [])
      (map ln_no (pu_links u)) ((fun d => map sa_no (pd_saddles d)) <$> pu_domain u).
  Definition revive_saddle (kd : kind) (s : psaddle) : saddle :=
    Saddle (Feat kd (cell_of (pa_at s)) (sp_ele (pa_at s)) (from_option mu_points [] (pa_multi s)) (pa_edge s) (pa_edgepts s) (pa_hpn s))
      (map ln_no (pa_links s)) (sa_no <$> pa_parent s) (map sa_no (pa_children s)) (pa_single s) (pa_basin s)
      (map sa_no (pa_alts s)) (pa_over s).
  Definition revive_link (l : plink) : link := Link (su_no (pl_summit l)) (sa_no (pl_saddle l)) (pl_disq l).
  Definition revive : dmap :=
    DMap (World (map (fun e => revive_saddle KSaddle e.2) (pm_saddles p) ++ map (fun e => revive_saddle KRunoff e.2) (pm_runoffs p))
                (map (fun e => revive_summit e.2) (pm_summits p)) (map (fun e => revive_link e.2) (pm_linkers p)))
      (seq 0 (length (pm_summits p))) (seq 0 (length (pm_saddles p)))
      (seq (length (pm_saddles p)) (length (pm_runoffs p))) (seq 0 (length (pm_linkers p))).
End revive.
