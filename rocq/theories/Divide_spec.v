(** Independent description of the exploration of a divide tree. *)
From Verif Require Import Base_model Graph_model Divide_model.
Local Open Scope Z_scope.

(** The lists of a world hold only links that belong to their owner. *)
Definition own_links (w : world) : Prop :=
  (forall a s k, w_summits w !! a = Some s -> k ∈ su_links s -> exists l, w_links w !! k = Some l /\ ln_summit l = a) /\
  (forall i s k, w_saddles w !! i = Some s -> k ∈ sa_links s -> exists l, w_links w !! k = Some l /\ ln_saddle l = i).

(** Link [k] joins summit [a] and saddle [s] and is not disqualified. *)
Definition joins (w : world) (k a s : nat) : Prop :=
  exists l, w_links w !! k = Some l /\ ln_summit l = a /\ ln_saddle l = s /\ ln_disq l = false.
(** Summit [a] lists link [k]; saddle [s] lists link [k]. *)
Definition at_summit (w : world) (a k : nat) : Prop := exists su, w_summits w !! a = Some su /\ k ∈ su_links su.
Definition at_saddle (w : world) (s k : nat) : Prop := exists sa, w_saddles w !! s = Some sa /\ k ∈ sa_links sa.
Definition summit_height (w : world) (a : nat) (z : Z) : Prop := exists su, w_summits w !! a = Some su /\ ft_ele (su_feat su) = z.
Definition summit_on_border (w : world) (a : nat) (b : bool) : Prop := exists su, w_summits w !! a = Some su /\ ft_edge (su_feat su) = b.
(** Saddle [s] is not disqualified, and is or is not on the border. *)
Definition live_saddle (w : world) (s : nat) (border : bool) : Prop :=
  exists sa, w_saddles w !! s = Some sa /\ disqualified sa = false /\ ft_edge (sa_feat sa) = border.
Definition not_higher (w : world) (b a : nat) : Prop := exists x y, summit_height w b x /\ summit_height w a y /\ x <= y.
Definition higher (w : world) (b a : nat) : Prop := exists x y, summit_height w b x /\ summit_height w a y /\ y < x.

(** One step down: from summit [a] by its link [k] to the saddle [s], which is
    not disqualified and not on the border, and by another link [j] of that
    saddle to a summit [b] that is not on the border and not higher. *)
Definition hop (w : world) (a k s j b : nat) : Prop :=
  at_summit w a k /\ joins w k a s /\ live_saddle w s false /\
  at_saddle w s j /\ j <> k /\ joins w j b s /\ summit_on_border w b false /\ not_higher w b a.
(** The links [p] lead step by step from summit [a] to summit [b]. *)
Inductive leads (w : world) (a : nat) : list nat -> nat -> Prop :=
  | leads_nil : leads w a [] a
  | leads_step p b k s j c : leads w a p b -> hop w b k s j c -> leads w a (p ++ [k; j]) c.
(** Link [k] can be reached from summit [a]. *)
Definition reach (w : world) (a k : nat) : Prop :=
  exists p b s, leads w a p b /\ at_summit w b k /\ joins w k b s.

(** The same with fewer than [n] steps down. *)
Definition reach_within (w : world) (n a k : nat) : Prop :=
  exists p b s, (length p < 2 * n)%nat /\ leads w a p b /\ at_summit w b k /\ joins w k b s.

(** Why an exploration ends at saddle [s], reached from summit [b] by [k]: the
    saddle is on the border, or another of its links leads to a summit on the
    border that is not higher, or to a higher summit. *)
Definition border_at (w : world) (b k s : nat) : Prop :=
  live_saddle w s true \/
  (live_saddle w s false /\ exists j c, at_saddle w s j /\ j <> k /\ joins w j c s /\ summit_on_border w c true /\ not_higher w c b).
Definition divide_at (w : world) (b k s : nat) : Prop :=
  live_saddle w s false /\ exists j c, at_saddle w s j /\ j <> k /\ joins w j c s /\ higher w c b.
(** The path [q] leads from [a] down to a summit and by one more link to saddle
    [s], where the exploration ends for the given reason. *)
Definition ends_at (w : world) (why : nat -> nat -> nat -> Prop) (a : nat) (q : list nat) (s : nat) : Prop :=
  exists p b k, q = p ++ [k] /\ leads w a p b /\ at_summit w b k /\ joins w k b s /\ why b k s.
