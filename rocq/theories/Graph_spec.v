(** Independent description of the object graph. *)
From Verif Require Import Base_model Graph_model.

(** ** Flags and overrides *)

(** What a caller can do to the flags of a saddle: assign singleSummit,
    basinSaddle or disqualified, or call disqualify_self_and_linkers. *)
Inductive flag_op :=
  | OSingle (b : bool)
  | OBasin (b : bool)
  | OOver (o : option bool)
  | ODisq (basin single : bool).

Definition do_op (io : nat * flag_op) (w : world) : world :=
  match io.2 with
  | OSingle b => upd_saddle io.1 (set_single b) w
  | OBasin b => upd_saddle io.1 (set_basin b) w
  | OOver o => upd_saddle io.1 (set_over o) w
  | ODisq basin single => disqualify_self_and_linkers basin single io.1 w
  end.

(** The value last given to each of the three by a history (newest first). *)
Definition gives_single (o : flag_op) : option bool :=
  match o with OSingle b => Some b | ODisq _ true => Some true | _ => None end.
Definition gives_basin (o : flag_op) : option bool :=
  match o with OBasin b => Some b | ODisq true _ => Some true | _ => None end.
Definition gives_over (o : flag_op) : option (option bool) :=
  match o with OOver v => Some v | ODisq false false => Some (Some true) | _ => None end.
Fixpoint latest {A} (f : flag_op -> option A) (i : nat) (first : A) (h : list (nat * flag_op)) : A :=
  match h with
  | [] => first
  | (j, o) :: h => if decide (i = j) then default (latest f i first h) (f o) else latest f i first h
  end.

(** ** Families *)

(** Two saddles at the same place: same coordinates after rounding to six
    decimals and the same elevation. *)
Definition same_place (m : datamap) (w : world) (i j : nat) : Prop :=
  exists a b, w_saddles w !! i = Some a /\ w_saddles w !! j = Some b /\
    round6 (ft_latlon m (sa_feat a)).1 = round6 (ft_latlon m (sa_feat b)).1 /\
    round6 (ft_latlon m (sa_feat a)).2 = round6 (ft_latlon m (sa_feat b)).2 /\
    ft_ele (sa_feat a) = ft_ele (sa_feat b).
Definition parent_of (w : world) (c : nat) : option nat := w_saddles w !! c ≫= sa_parent.
Definition children_of (w : world) (p : nat) : list nat := from_option sa_children [] (w_saddles w !! p).
Definition alts_of (w : world) (p : nat) : list nat := from_option sa_alts [] (w_saddles w !! p).

(** [c] has parent [p] exactly when [p] lists [c]; being an alternative is
    mutual. *)
Definition family (w : world) : Prop :=
  (forall c p, parent_of w c = Some p <-> c ∈ children_of w p) /\
  (forall a b, a ∈ alts_of w b -> b ∈ alts_of w a).

(** Siblings, and alternatives of one saddle, are at different places. *)
Definition siblings_apart (m : datamap) (w : world) : Prop :=
  (forall p x y, x ∈ children_of w p -> y ∈ children_of w p -> same_place m w x y -> x = y) /\
  (forall b x y, x ∈ alts_of w b -> y ∈ alts_of w b -> same_place m w x y -> x = y).

(** The same saddle, apart from its place in the family. *)
Definition same_but_family (a b : saddle) : Prop :=
  sa_feat a = sa_feat b /\ sa_links a = sa_links b /\ sa_single a = sa_single b /\
  sa_basin a = sa_basin b /\ sa_alts a = sa_alts b /\ sa_over a = sa_over b.

(** ** Links *)

(** Every link is listed by its two ends, and nothing else is listed. *)
Definition linked_up (w : world) : Prop :=
  (forall i s k, w_saddles w !! i = Some s ->
     k ∈ sa_links s <-> exists l, w_links w !! k = Some l /\ ln_saddle l = i) /\
  (forall i s k, w_summits w !! i = Some s ->
     k ∈ su_links s <-> exists l, w_links w !! k = Some l /\ ln_summit l = i) /\
  (forall k l, w_links w !! k = Some l ->
     (ln_saddle l < length (w_saddles w))%nat /\ (ln_summit l < length (w_summits w))%nat).

(** A link that a query may follow. *)
Definition follow (w : world) (skip : bool) (exempt : nat -> bool) (k : nat) (l : link) : Prop :=
  w_links w !! k = Some l /\ exempt k = false /\ (skip = true -> ln_disq l = false).

(** A saddle that purging removes. *)
Definition purged (singleSummit basinSaddle allBasinSaddles : bool) (s : saddle) : Prop :=
  sa_basin s = true /\ allBasinSaddles = true \/
  sa_basin s = true /\ basinSaddle = true /\ sa_alts s = [] \/
  sa_single s = true /\ singleSummit = true.

(** From [w] to [w'] the saddles [R] were deleted: they are overridden as
    disqualified and their links are marked; elsewhere families, alternatives and
    domains only lose members, and nothing else changes. *)
Definition deleted (R : list nat) (w w' : world) : Prop :=
  length (w_saddles w') = length (w_saddles w) /\
  length (w_summits w') = length (w_summits w) /\
  length (w_links w') = length (w_links w) /\
  (forall j a, w_saddles w !! j = Some a -> exists b, w_saddles w' !! j = Some b /\
     sa_feat b = sa_feat a /\ sa_links b = sa_links a /\ sa_single b = sa_single a /\
     sa_basin b = sa_basin a /\
     (j ∈ R -> sa_over b = Some true) /\ (j ∉ R -> sa_over b = sa_over a) /\
     sa_children b `sublist_of` sa_children a /\ sa_alts b `sublist_of` sa_alts a /\
     (sa_parent b = sa_parent a \/ sa_parent b = None)) /\
  (forall j a, w_summits w !! j = Some a -> exists b, w_summits w' !! j = Some b /\
     su_feat b = su_feat a /\ su_links b = su_links a /\
     match su_domain a, su_domain b with
     | Some la, Some lb => lb `sublist_of` la
     | None, None => True
     | _, _ => False
     end) /\
  (forall k l, w_links w !! k = Some l -> exists l', w_links w' !! k = Some l' /\
     ln_summit l' = ln_summit l /\ ln_saddle l' = ln_saddle l /\
     (ln_disq l' = true <-> ln_disq l = true \/
        exists i s, i ∈ R /\ w_saddles w !! i = Some s /\ k ∈ sa_links s)).

Global Instance purged_dec a b c s : Decision (purged a b c s).
Proof. unfold purged. apply _. Defined.
(** An existing saddle that purging removes, or keeps. *)
Definition goes (a b c : bool) (w : world) (i : nat) : bool :=
  match w_saddles w !! i with Some s => bool_decide (purged a b c s) | None => false end.
Definition stays (a b c : bool) (w : world) (i : nat) : bool :=
  match w_saddles w !! i with Some s => bool_decide (~ purged a b c s) | None => false end.
Definition links_at (w : world) (i : nat) : list nat := from_option sa_links [] (w_saddles w !! i).
(** The saddles of the domain of summit [d]. *)
Definition domain_saddles (w : world) (d : nat) : list nat :=
  from_option (fun s => default [] (su_domain s)) [] (w_summits w !! d).
