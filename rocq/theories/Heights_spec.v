(** Graphs whose features are in the same order of height. *)
From Verif Require Import Base_model Graph_model Basin_model Basin_spec.
Local Open Scope Z_scope.

(** The same object, but for its elevation and the points it lists. *)
Definition like_saddle (s s' : saddle) : Prop :=
  ft_pos (sa_feat s) = ft_pos (sa_feat s') /\ ft_edge (sa_feat s) = ft_edge (sa_feat s') /\
  sa_links s = sa_links s' /\ sa_parent s = sa_parent s' /\ sa_children s = sa_children s' /\
  sa_single s = sa_single s' /\ sa_basin s = sa_basin s' /\ sa_alts s = sa_alts s' /\ sa_over s = sa_over s'.
Definition like_summit (s s' : summit) : Prop :=
  ft_pos (su_feat s) = ft_pos (su_feat s') /\ ft_edge (su_feat s) = ft_edge (su_feat s') /\
  su_links s = su_links s'.
Definition there (w : world) (n : node) : Prop :=
  match n with
  | inl i => (i < length (w_saddles w))%nat
  | inr a => (a < length (w_summits w))%nat
  end.

(** The same graph with the same marks, and of two features the same one is
    higher. *)
Record same_heights (w1 w2 : world) : Prop := {
  sh_saddles : Forall2 like_saddle (w_saddles w1) (w_saddles w2);
  sh_summits : Forall2 like_summit (w_summits w1) (w_summits w2);
  sh_links : w_links w1 = w_links w2;
  sh_less : forall a b, there w1 a -> there w1 b -> (ele_at w1 a < ele_at w1 b <-> ele_at w2 a < ele_at w2 b) }.

(** The graph with every elevation [e] replaced by [g e]. *)
Definition regrade_feat (g : Z -> Z) (f : feature) : feature :=
  Feat (ft_kind f) (ft_pos f) (g (ft_ele f)) (ft_multi f) (ft_edge f) (ft_edgepts f) (ft_hpn f).
Definition regrade_world (g : Z -> Z) (w : world) : world :=
  World (map (fun s => Saddle (regrade_feat g (sa_feat s)) (sa_links s) (sa_parent s) (sa_children s) (sa_single s)
                         (sa_basin s) (sa_alts s) (sa_over s)) (w_saddles w))
        (map (fun s => Summit (regrade_feat g (su_feat s)) (su_links s) (su_domain s)) (w_summits w)) (w_links w).
