(** Properties C05, C06, C16: grouping points. *)
From Verif Require Import Base_model Raster_model Raster_spec Contig_model Contig_proof Touch_proof
  Example_maps.
Local Open Scope Z_scope.

(** C05.  For every order in which [set.pop] hands out elements the grouping
    succeeds, lists every distinct point exactly once, has no empty group, and
    puts two points in the same group exactly when a chain of touching input
    points links them. *)
Theorem C05_grouping orc (points : list pte) :
  (forall p, p ∈ points -> 0 <= pt_x p /\ 0 <= pt_y p) ->
  (forall p q, p ∈ points -> q ∈ points -> pt_xy p = pt_xy q -> p = q) ->
  exists groups, contiguous_neighbors orc points = Ok groups /\
    concat groups ≡ₚ remove_dups points /\
    (forall g, g ∈ groups -> g <> []) /\
    forall i j g h a b, groups !! i = Some g -> groups !! j = Some h -> a ∈ g -> b ∈ h ->
      (i = j <-> linked (fun p q => adj8 (pt_xy p) (pt_xy q)) (fun q => q ∈ points) a b).
Proof. exact (contiguous_neighbors_spec orc points). Qed.
Print Assumptions C05_grouping.

Example C05_case :
  let points := [(0, 0, 7); (3, 3, 7); (1, 1, 8); (0, 0, 7); (4, 2, 9)] in
  (forall p, p ∈ points -> 0 <= pt_x p /\ 0 <= pt_y p) /\
  (forall p q, p ∈ points -> q ∈ points -> pt_xy p = pt_xy q -> p = q) /\
  contiguous_neighbors (fun _ => O) points =
    Ok [[(3, 3, 7); (4, 2, 9)]; [(1, 1, 8); (0, 0, 7)]].
Proof.
  split_and!; [| |vm_compute; reflexivity].
  - intros p Hp. repeat (apply elem_of_cons in Hp as [->|Hp]; [cbn; lia|]).
    by apply elem_of_nil in Hp.
  - intros p q Hp Hq.
    repeat (apply elem_of_cons in Hp as [->|Hp];
      [repeat (apply elem_of_cons in Hq as [->|Hq]; [by intros [=]|]); by apply elem_of_nil in Hq|]).
    by apply elem_of_nil in Hp.
Qed.

(** C06.  List [i] reports list [j] exactly when [i < j] and they touch, and
    no pair is reported twice. *)
Theorem C06_touching m (ls : list (list pte)) :
  (forall i j g h p q, ls !! i = Some g -> ls !! j = Some h -> p ∈ g -> q ∈ h ->
     pt_xy p = pt_xy q -> i = j) ->
  exists d, touching_neighborhoods m ls = Ok d /\
    NoDup (map fst d) /\ (forall k l, (k, l) ∈ d -> NoDup l) /\
    forall u t, (exists l, (u, l) ∈ d /\ t ∈ l) <->
      exists i j g h p q, u = Z.of_nat i /\ t = Z.of_nat j /\ (i < j)%nat /\
        ls !! i = Some g /\ ls !! j = Some h /\ p ∈ g /\ q ∈ h /\ adj8 (pt_xy p) (pt_xy q).
Proof. exact (touching_spec m ls). Qed.
Print Assumptions C06_touching.

Example C06_case :
  let ls := [[(0, 0, 1)]; [(2, 2, 1); (2, 3, 1)]; [(1, 1, 5)]] in
  (forall i j g h p q, ls !! i = Some g -> ls !! j = Some h -> p ∈ g -> q ∈ h ->
     pt_xy p = pt_xy q -> i = j) /\
  touching_neighborhoods map_a ls = Ok [(0, [2]); (1, [2])].
Proof.
  split; [|vm_compute; reflexivity].
  intros i j g h p q Hi Hj Hp Hq Hpq.
  do 3 (destruct i as [|i]; [injection Hi as <-;
    do 3 (destruct j as [|j]; [injection Hj as <-; first [done|
      repeat (apply elem_of_cons in Hp as [->|Hp]; [
        repeat (apply elem_of_cons in Hq as [->|Hq]; [done|]); by apply elem_of_nil in Hq|]);
      by apply elem_of_nil in Hp]|]); done|]). done.
Qed.

(** C16.  The highest points, in order and with multiplicity; the query raises
    only on the empty list. *)
Theorem C16_highest points :
  points <> [] ->
  exists h, (exists p, p ∈ points /\ pt_e p = h) /\ (forall p, p ∈ points -> pt_e p <= h) /\
    highest points = Ok (filter (fun p => pt_e p = h) points).
Proof. exact (highest_spec points). Qed.
Print Assumptions C16_highest.

Theorem C16_highest_empty : highest [] = Err IndexError.
Proof. exact eq_refl. Qed.
Print Assumptions C16_highest_empty.

Example C16_case :
  highest [(0, 0, 3); (0, 1, 8); (2, 2, 8); (0, 1, 8); (5, 5, 7)] =
  Ok [(0, 1, 8); (2, 2, 8); (0, 1, 8)].
Proof. vm_compute. reflexivity. Qed.
