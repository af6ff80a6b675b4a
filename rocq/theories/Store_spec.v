(** Independent description of a map whose references stay inside, and of the
    graph of a loaded map. *)
From Verif Require Import Analyze_model Graph_model Graph_spec Basin_spec Persist_model.
Local Open Scope Z_scope.

(** The listed objects exist; saddles, summits and links are listed once;
    runoffs are not listed as saddles.  All that listed objects refer to is
    listed: relations of saddles lead to saddles, links and domains to saddles
    or runoffs and to summits. *)
Record whole (d : dmap) : Prop := {
  wh_summits : NoDup (mp_summits d) /\ forall a, a ∈ mp_summits d -> is_Some (w_summits (mp_world d) !! a);
  wh_saddles : NoDup (mp_saddles d) /\ forall i, i ∈ mp_saddles d ++ mp_runoffs d -> is_Some (w_saddles (mp_world d) !! i);
  wh_apart : forall i, i ∈ mp_saddles d -> i ∉ mp_runoffs d;
  wh_links : NoDup (mp_linkers d) /\ forall k, k ∈ mp_linkers d -> exists l, w_links (mp_world d) !! k = Some l /\
    ln_summit l ∈ mp_summits d /\ ln_saddle l ∈ mp_saddles d ++ mp_runoffs d;
  wh_family : forall i o j, i ∈ mp_saddles d -> w_saddles (mp_world d) !! i = Some o ->
    j ∈ sa_children o \/ sa_parent o = Some j \/ j ∈ sa_alts o -> j ∈ mp_saddles d;
  wh_domains : forall a j, a ∈ mp_summits d -> j ∈ domain_saddles (mp_world d) a -> j ∈ mp_saddles d ++ mp_runoffs d }.

(** Different objects have different names, none of them empty. *)
Definition naming (name : nat -> string) : Prop :=
  (forall i j, name i = name j -> i = j) /\ forall i, name i <> ""%string.

(** A saddle of a loaded map that does not count. *)
Definition ruled_out (s : psaddle) : Prop :=
  pa_over s = Some true \/ (pa_over s = None /\ (pa_single s = true \/ pa_basin s = true)).
(** The list of links of saddle [s] has one to the summit [a]. *)
Definition leads_to (p : pmap) (s : psaddle) (a : string) : Prop :=
  exists k l, k ∈ pa_links s /\ (k, l) ∈ pm_linkers p /\ pl_summit l = a.
(** The summits [a] and [b] of a loaded map are joined by saddles of elevation
    at least [e] that count. *)
Definition loaded_hop (p : pmap) (e : Z) (a b : string) : Prop :=
  exists i s, (i, s) ∈ pm_saddles p /\ ~ ruled_out s /\ e <= sp_ele (pa_at s) /\ leads_to p s a /\ leads_to p s b.
Definition loaded_joined (p : pmap) (e : Z) : string -> string -> Prop := rtc (loaded_hop p e).

(** ** The loaded map and the analysis [d] *)

(** The position [s] is that of feature [f]. *)
Definition placed (m : datamap) (f : feature) (s : spot) : Prop :=
  (sp_lat s, sp_lon s) = xy_to_latlon m (ft_pos f).1 (ft_pos f).2 /\ sp_ele s = ft_ele f.
(** [u] is the flat area of the feature [f]: the same cells, and its perimeter. *)
Definition spread (rim_of : feature -> perimeter * bool * list pte) (f : feature) (o : option multi) : Prop :=
  match o with
  | None => ft_multi f = []
  | Some u => ft_multi f <> [] /\ map fst (mu_points u) = map fst (ft_multi f) /\ mu_ele u = ft_ele f /\
      exists b, mu_per u = Some b /\ b_edge b = (rim_of f).1.2 /\ b_edgepts b = Some (rim_of f).2 /\
        forall x, x ∈ per_points (b_per b) -> x ∈ per_points (rim_of f).1.1
  end.
Section like.
  Context (m : datamap) (su_name sa_name ln_name : nat -> string) (rim_of : feature -> perimeter * bool * list pte).
  Context (d : dmap) (doms : list nat) (pts : nat -> list pte) (p' : pmap).
  Let w := mp_world d.

  Definition like_summit (a : nat) (k : string) (u' : psummit) : Prop :=
    k = su_name a /\ exists u, w_summits w !! a = Some u /\
      placed m (su_feat u) (pu_at u') /\ pu_edge u' = ft_edge (su_feat u) /\ pu_edgepts u' = ft_edgepts (su_feat u) /\
      spread rim_of (su_feat u) (pu_multi u') /\
      (forall k, k ∈ pu_links u' -> exists i l, k = ln_name i /\ i ∈ mp_linkers d /\ w_links w !! i = Some l /\ ln_summit l = a) /\
      match pu_domain u' with
      | None => a ∉ doms \/ su_domain u = None
      | Some g => a ∈ doms /\ exists l, su_domain u = Some l /\ g = PDomain k (map sa_name l) (pts a)
      end.
  Definition like_saddle (i : nat) (k : string) (s : psaddle) : Prop :=
    k = sa_name i /\ exists o, w_saddles w !! i = Some o /\
      placed m (sa_feat o) (pa_at s) /\ pa_edge s = ft_edge (sa_feat o) /\ pa_edgepts s = ft_edgepts (sa_feat o) /\
      spread rim_of (sa_feat o) (pa_multi s) /\ pa_hpn s = ft_hpn (sa_feat o) /\
      pa_single s = sa_single o /\ pa_basin s = sa_basin o /\ pa_over s = sa_over o /\
      pa_parent s = sa_name <$> sa_parent o /\ pa_children s = map sa_name (sa_children o) /\
      pa_alts s = map sa_name (sa_alts o) /\
      (forall k, k ∈ pa_links s -> exists j l, k = ln_name j /\ j ∈ mp_linkers d /\ w_links w !! j = Some l /\ ln_saddle l = i) /\
      forall x, leads_to p' s x <-> exists a, x = su_name a /\ a ∈ summits_of w i.
  Definition like_runoff (i : nat) (k : string) (s : psaddle) : Prop :=
    k = sa_name i /\ exists o, w_saddles w !! i = Some o /\
      placed m (sa_feat o) (pa_at s) /\ pa_edge s = true /\ spread rim_of (sa_feat o) (pa_multi s) /\
      pa_over s = sa_over o.
  Definition like_link (i : nat) (k : string) (l' : plink) : Prop :=
    k = ln_name i /\ exists l, w_links w !! i = Some l /\ l' = PLink (su_name (ln_summit l)) (sa_name (ln_saddle l)) (ln_disq l).

  (** The loaded map has the objects of the analysis, in order. *)
  Record like_analysis : Prop := {
    la_summits : Forall2 (fun a e => like_summit a e.1 e.2) (mp_summits d) (pm_summits p');
    la_saddles : Forall2 (fun i e => like_saddle i e.1 e.2) (mp_saddles d) (pm_saddles p');
    la_runoffs : Forall2 (fun i e => like_runoff i e.1 e.2) (mp_runoffs d) (pm_runoffs p');
    la_links : Forall2 (fun k e => like_link k e.1 e.2) (mp_linkers d) (pm_linkers p') }.
End like.
