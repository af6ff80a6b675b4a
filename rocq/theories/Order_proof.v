(** The order in which neighbours are listed. *)
From Verif Require Import Base_model Raster_model Raster_spec Raster_proof.
Local Open Scope Z_scope.

Lemma orthogonal_order m x y :
  exists l, iterateOrthogonal m x y = Ok l /\ NoDup (map fst l) /\ length l = 4%nat /\
    (forall q v, (q, v) ∈ l <-> adj4 (x, y) q /\ reported m q v) /\
    map fst l = [(x - 1, y); (x, y + 1); (x + 1, y); (x, y - 1)].
Proof.
  destruct (iterateOrthogonal_spec m x y) as (l & E & H1 & H2 & H3). exists l. do 4 (split; [done|]).
  unfold iterateOrthogonal in E. rewrite iterate_shifts_eq in E. injection E as <-. unfold shift_of. cbn. repeat f_equal; lia.
Qed.
Lemma diagonal_order m x y :
  exists l, iterateDiagonal m x y = Ok l /\ NoDup (map fst l) /\ length l = 4%nat /\
    (forall q v, (q, v) ∈ l <-> adjD (x, y) q /\ reported m q v) /\
    map fst l = [(x - 1, y + 1); (x + 1, y + 1); (x + 1, y - 1); (x - 1, y - 1)].
Proof.
  destruct (iterateDiagonal_spec m x y) as (l & E & H1 & H2 & H3). exists l. do 4 (split; [done|]).
  unfold iterateDiagonal in E. rewrite iterate_shifts_eq in E. injection E as <-. unfold shift_of. cbn. repeat f_equal; lia.
Qed.
