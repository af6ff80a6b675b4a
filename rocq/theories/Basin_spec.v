(** Independent description of basin saddles. *)
From Verif Require Import Base_model Graph_model Basin_model Graph_spec.
Local Open Scope Z_scope.

(** ** Marking *)

(** From [w] to [w'] the saddles [S] were flagged as single-summit saddles, the
    saddles [B] as basin saddles, all with their links; only saddles of [A] may
    have other alternatives; nothing else changed. *)
Record marked (S B A : list nat) (w w' : world) : Prop := {
  mk_len : length (w_saddles w') = length (w_saddles w);
  mk_summits : w_summits w' = w_summits w;
  mk_saddle : forall j a, w_saddles w !! j = Some a -> exists b, w_saddles w' !! j = Some b /\
    sa_feat b = sa_feat a /\ sa_links b = sa_links a /\ sa_parent b = sa_parent a /\
    sa_children b = sa_children a /\ sa_over b = sa_over a /\
    (sa_single b = true <-> sa_single a = true \/ j ∈ S) /\
    (sa_basin b = true <-> sa_basin a = true \/ j ∈ B) /\
    (j ∉ A -> sa_alts b = sa_alts a);
  mk_lenl : length (w_links w') = length (w_links w);
  mk_link : forall k l, w_links w !! k = Some l -> exists l', w_links w' !! k = Some l' /\
    ln_summit l' = ln_summit l /\ ln_saddle l' = ln_saddle l /\
    (ln_disq l' = true <-> ln_disq l = true \/
       exists j a, (j ∈ S \/ j ∈ B) /\ w_saddles w !! j = Some a /\ k ∈ sa_links a) }.

(** The summits that saddle [i] is linked to, and the saddles that summit [a]
    is linked to, by their own lists. *)
Definition summits_of (w : world) (i : nat) : list nat :=
  match w_saddles w !! i with
  | Some s => omap (fun k => ln_summit <$> w_links w !! k) (sa_links s)
  | None => []
  end.
Definition saddles_of (w : world) (a : nat) : list nat :=
  match w_summits w !! a with
  | Some s => omap (fun k => ln_saddle <$> w_links w !! k) (su_links s)
  | None => []
  end.
(** All summits of saddle [i] are equal to each other. *)
Definition one_summit (m : datamap) (w : world) (i : nat) : Prop :=
  forall a b, a ∈ summits_of w i -> b ∈ summits_of w i -> summit_same m w a b = true.
Definition not_disq (w : world) (i : nat) : Prop :=
  exists s, w_saddles w !! i = Some s /\ disqualified s = false.

(** ** The graph *)

(** A saddle that is neither disqualified nor on the border; a summit that is
    not on the border. *)
Definition open_ (w : world) (n : node) : Prop :=
  match n with
  | inl i => exists s, w_saddles w !! i = Some s /\ disqualified s = false /\ ft_edge (sa_feat s) = false
  | inr a => exists s, w_summits w !! a = Some s /\ ft_edge (su_feat s) = false
  end.
(** Node [n] lists node [n']. *)
Definition edge (w : world) (n n' : node) : Prop :=
  match n, n' with
  | inl i, inr a => a ∈ summits_of w i
  | inr a, inl i => i ∈ saddles_of w a
  | _, _ => False
  end.
Definition ele_at (w : world) (n : node) : Z :=
  match n with
  | inl i => match w_saddles w !! i with Some s => ft_ele (sa_feat s) | None => 0 end
  | inr a => match w_summits w !! a with Some s => ft_ele (su_feat s) | None => 0 end
  end.

(** Consecutive members of a list are related. *)
Definition linked {A} (R : A -> A -> Prop) (l : list A) : Prop :=
  forall i x y, l !! i = Some x -> l !! S i = Some y -> R x y.
(** A closed chain of distinct members. *)
Definition closed {A} (R : A -> A -> Prop) (l : list A) : Prop :=
  (3 <= length l)%nat /\ NoDup l /\ linked R (l ++ take 1 l).

(** An edge between open nodes. *)
Definition open_edge (w : world) (n n' : node) : Prop := open_ w n /\ open_ w n' /\ edge w n n'.

(** No saddle is forced to be kept. *)
Definition no_override (w : world) : Prop :=
  forall i s, w_saddles w !! i = Some s -> sa_over s <> Some false.

(** Saddle [b] is a lowest member of the list [c] of nodes. *)
Definition lowest_on (w : world) (c : list node) (b : nat) : Prop :=
  Sad b ∈ c /\ forall y, y ∈ c -> ele_at w (Sad b) <= ele_at w y.
(** Why saddle [b] was flagged as a basin saddle: it is lowest on a list of
    nodes of kind [P]. *)
Definition blamed (P : list node -> Prop) (w : world) (b : nat) : Prop := exists c, P c /\ lowest_on w c b.
(** The alternatives of saddle [a] in [w'] are the other lowest members [low] of
    such a list: [low] without one element equal to [a]. *)
Definition alternatives (m : datamap) (P : list node -> Prop) (w w' : world) (a : nat) : Prop :=
  exists c low x s, P c /\ (2 <= length low)%nat /\ (NoDup c -> NoDup low) /\
    (forall i, i ∈ low <-> lowest_on w c i) /\ a ∈ low /\ w_saddles w' !! a = Some s /\
    saddle_same m w x a = true /\ x :: sa_alts s ≡ₚ low.

(** A graph as walks make it: open nodes list each other mutually and once, and
    saddles are lower than the summits they are linked to. *)
Record simple_graph (w : world) : Prop := {
  sg_sym : forall n n', open_ w n -> open_ w n' -> edge w n n' -> edge w n' n;
  sg_sad : forall i, open_ w (Sad i) -> NoDup (filter (fun a => dead w (Sum a) = false) (summits_of w i));
  sg_sum : forall a, open_ w (Sum a) -> NoDup (filter (fun i => dead w (Sad i) = false) (saddles_of w a));
  sg_up : forall i a, open_ w (Sad i) -> open_ w (Sum a) -> edge w (Sad i) (Sum a) ->
    ele_at w (Sad i) < ele_at w (Sum a) }.

(** The state before detection: open saddles with links are listed; open saddles
    have at most two links and are lower than their summits; a link between an open saddle and an open
    summit is listed by both, once; summits are at different places. *)
Record basin_graph (m : datamap) (w : world) (saddles : list nat) : Prop := {
  bg_all : forall i, open_ w (Sad i) -> summits_of w i <> [] -> i ∈ saddles;
  bg_two : forall i, open_ w (Sad i) -> (length (summits_of w i) <= 2)%nat;
  bg_saddle : forall i s k, open_ w (Sad i) -> w_saddles w !! i = Some s -> k ∈ sa_links s ->
    exists l, w_links w !! k = Some l /\ ln_saddle l = i /\
      forall u, w_summits w !! ln_summit l = Some u -> ft_edge (su_feat u) = false -> k ∈ su_links u;
  bg_summit : forall a u k, open_ w (Sum a) -> w_summits w !! a = Some u -> k ∈ su_links u ->
    exists l, w_links w !! k = Some l /\ ln_summit l = a /\
      forall s, w_saddles w !! ln_saddle l = Some s -> disqualified s = false -> ft_edge (sa_feat s) = false ->
        k ∈ sa_links s;
  bg_once : forall a u, open_ w (Sum a) -> w_summits w !! a = Some u -> NoDup (su_links u);
  bg_up : forall i a, open_edge w (Sad i) (Sum a) -> ele_at w (Sad i) < ele_at w (Sum a);
  bg_apart : forall a b, summit_same m w a b = true -> a = b }.

(** Summits [a] and [b] are joined by saddles that are not disqualified and
    satisfy [ok]. *)
Definition hop (w : world) (ok : nat -> Prop) (a b : nat) : Prop :=
  exists i, ok i /\ not_disq w i /\ a ∈ summits_of w i /\ b ∈ summits_of w i.
Definition joined (w : world) (ok : nat -> Prop) : nat -> nat -> Prop := rtc (hop w ok).

(** Saddles that are forced to be kept have two different summits. *)
Definition kept_proper (m : datamap) (w : world) : Prop :=
  forall i s, w_saddles w !! i = Some s -> sa_over s = Some false -> ~ one_summit m w i.
