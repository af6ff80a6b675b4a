(** Independent description of the regions explored in a tree of links. *)
From Verif Require Import Base_model Graph_model Divide_model Basin_model Graph_spec Persist_spec Basin_spec Divide_spec.
Local Open Scope Z_scope.

(** A graph in which the open nodes form a tree: open saddles have at most two
    links, which lead to different summits; open nodes list the same links; no
    closed chain of open nodes. *)
Record tree_graph (w : world) : Prop := {
  tg_own : own_links w;
  tg_two : forall s sa, open_ w (Sad s) -> w_saddles w !! s = Some sa -> (length (sa_links sa) <= 2)%nat;
  tg_sad : forall s k, open_ w (Sad s) -> at_saddle w s k -> exists a, joins w k a s /\ (open_ w (Sum a) -> at_summit w a k);
  tg_sum : forall a k s, open_ w (Sum a) -> at_summit w a k -> joins w k a s -> open_ w (Sad s) -> at_saddle w s k;
  tg_once : forall a su, open_ w (Sum a) -> w_summits w !! a = Some su -> NoDup (su_links su);
  tg_one : forall s k k' a, open_ w (Sad s) -> at_saddle w s k -> at_saddle w s k' -> joins w k a s -> joins w k' a s -> k = k';
  tg_forest : forall c, ~ closed (open_edge w) c }.

(** The links [p] lead from summit [a] down to summit [b] over the nodes [ns],
    last first, and no node is met twice. *)
Inductive descent (w : world) (a : nat) : list nat -> nat -> list node -> Prop :=
  | descent_nil : descent w a [] a [Sum a]
  | descent_step p b ns k s j c : descent w a p b ns -> hop w b k s j c -> Sad s ∉ ns -> Sum c ∉ ns ->
      descent w a (p ++ [k; j]) c (Sum c :: Sad s :: ns).
(** The links [q] lead down from [a] and by one more link to a saddle [s] not met
    before, which is on the border or leads to a summit on the border or higher
    than the last one. *)
Definition way_out (w : world) (a : nat) (q : list nat) (s : nat) : Prop :=
  exists p b ns k, q = p ++ [k] /\ descent w a p b ns /\ at_summit w b k /\ joins w k b s /\ Sad s ∉ ns /\
    (border_at w b k s \/ divide_at w b k s).
(** All saddles on the links [p] satisfy [ok]. *)
Definition over (w : world) (ok : nat -> Prop) (p : list nat) : Prop := forall k a s, k ∈ p -> joins w k a s -> ok s.
(** The same object or one that counts as equal: at the same place and height. *)
Definition saddle_alike (m : datamap) (w : world) (s s' : nat) : Prop :=
  s = s' \/ exists x y, w_saddles w !! s = Some x /\ w_saddles w !! s' = Some y /\ same_spot (ft_spot m (sa_feat x)) (ft_spot m (sa_feat y)).
Definition summit_alike (m : datamap) (w : world) (a a' : nat) : Prop :=
  a = a' \/ exists x y, w_summits w !! a = Some x /\ w_summits w !! a' = Some y /\ same_spot (ft_spot m (su_feat x)) (ft_spot m (su_feat y)).
