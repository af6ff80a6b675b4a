(** Property C80: climbing in a part of a raster. *)
From Verif Require Import Base_model Raster_model Climb_model Raster_spec Raster_facts Tile_spec Ascent_spec Ascent_proof Climb_facts Closest_proof Example_maps.
Local Open Scope Z_scope.

(** C80.  For a cell inside a part of a raster the steepest neighbour is the same
    in the part and in the raster. *)
Theorem C80_steepest o w h m c : 0 <= o.1 -> 0 <= o.2 -> o.1 + w <= dm_max_x m -> o.2 + h <= dm_max_y m ->
  inner_cell (cut_out o w h m) c ->
  forall r, steepestNeighbor (cut_out o w h m) c.1 c.2 = Ok r ->
    steepestNeighbor m (shift o c).1 (shift o c).2 = Ok (shift_answer o r).
Proof. intros H1 H2 H3 H4 Hc r Hr. rewrite (part_steepest o w h m H1 H2 H3 H4 c Hc), Hr. done. Qed.
Print Assumptions C80_steepest.

(** C80.  Let the records of a walk on the part agree with those of a walk on the
    raster, and climb on the part.  If every cell that this adds to the records
    lies inside the part and ties with no neighbour, then the climb on the raster
    ends in the same domain, adds the same cells in the same order, and the
    records agree again. *)
Theorem C80_climb near near' o w h m st sm p d st' :
  0 <= o.1 -> 0 <= o.2 -> o.1 + w <= dm_max_x m -> o.2 + h <= dm_max_y m -> 0 <= w -> 0 <= h ->
  let t := cut_out o w h m in
  same_records o t st sm -> in_map t p -> climb near t (p, elev t p) st = Ok (Some d, st') ->
  (forall c, is_Some (cs_table st' !! c) -> cs_table st !! c = None -> inner_cell t c /\ untied t c) ->
  exists cs sm', climb near' m (shift o p, elev m (shift o p)) sm = Ok (Some d, sm') /\
    cs_log st' = cs_log st ++ map (pair d) cs /\ cs_log sm' = cs_log sm ++ map (pair d) (map (shift o) cs) /\
    same_records o t st' sm'.
Proof.
  intros H1 H2 H3 H4 Hw Hh t Hs Hp Hc Hn.
  exact (part_climb o w h m H1 H2 H3 H4 near near' st sm Hs p d st' Hw Hh Hp Hc Hn).
Qed.
Print Assumptions C80_climb.

Definition hill_map : datamap :=
  row_map [[0; 0; 0; 0; 0; 0; 0];
           [0; 1; 2; 1; 2; 1; 0];
           [0; 2; 3; 5; 8; 3; 0];
           [0; 1; 2; 1; 2; 20; 0];
           [0; 0; 0; 0; 0; 0; 0]] None unit_gt.

(** A climb over three cells inside the part, to a registered cell. *)
Example C80_case :
  let t := cut_out (1, 1) 2 4 hill_map in let st := CS {[(2, 4) := 0%nat]} [(0%nat, (2, 4))] in
  let sm := CS {[(3, 5) := 0%nat]} [(0%nat, (3, 5))] in
  same_records (1, 1) t st sm /\ in_map t (1, 1) /\
  exists st', climb search0 t ((1, 1), elev t (1, 1)) st = Ok (Some 0%nat, st') /\
    (forall c, is_Some (cs_table st' !! c) -> cs_table st !! c = None -> inner_cell t c /\ untied t c) /\
    cs_log st' = map (pair 0%nat) [(2, 4); (1, 1); (1, 2); (1, 3)].
Proof.
  intros t st sm. split.
  { intros [x y] _. unfold shift. cbn. destruct (decide ((x, y) = (2, 4))) as [[= -> ->]|Hne]; [done|].
    rewrite !lookup_singleton_ne; [done| |]; intros [=]; apply Hne; f_equal; lia. }
  split; [by vm_compute|]. exists (sd_extend 0 [(1, 1); (1, 2); (1, 3)] st). split; [by vm_compute|]. split; [|by vm_compute].
  intros c Hc Hn. rewrite extend_table in Hc. destruct (decide (c ∈ _)) as [Hin|]; [|rewrite Hn in Hc; by destruct Hc].
  assert (forall q, in_map t q -> q.1 = 0 \/ q.1 = 1 \/ q.1 = 2) as Hx by (intros q [H _]; cbn in H; lia).
  assert (forall q, in_map t q -> q.2 = 0 \/ q.2 = 1 \/ q.2 = 2 \/ q.2 = 3 \/ q.2 = 4) as Hy by (intros q [_ H]; cbn in H; lia).
  repeat (apply elem_of_cons in Hin as [->|Hin]); [..|by apply elem_of_nil in Hin].
  all: split; [by vm_compute|]; intros [x y] (Hne & H1 & H2) Hq; pose proof (Hx _ Hq) as Hx'; pose proof (Hy _ Hq) as Hy';
    cbn [fst snd] in *; destruct Hx' as [->|[->| ->]], Hy' as [->|[->|[->|[->| ->]]]]; try lia; try done; by vm_compute.
Qed.

Definition ridge_map : datamap := row_map [[9; 5; 6; 7]] None unit_gt.

(** C80, refuted for cells on the border of the part: the steepest way can lead
    out of the part, and the climb on the part ends in another domain. *)
Theorem C80_border_refuted : exists near m o w h st sm p d st' d' sm', let t := cut_out o w h m in
  0 <= o.1 /\ 0 <= o.2 /\ o.1 + w <= dm_max_x m /\ o.2 + h <= dm_max_y m /\ 0 <= w /\ 0 <= h /\
  same_records o t st sm /\ in_map t p /\ (forall c, in_map t c -> untied t c) /\
  climb near t (p, elev t p) st = Ok (Some d, st') /\
  climb near m (shift o p, elev m (shift o p)) sm = Ok (Some d', sm') /\ d <> d'.
Proof.
  exists search0, ridge_map, (0, 1), 0, 2, (CS {[(0, 2) := 1%nat]} []), (CS {[(0, 3) := 1%nat; (0, 0) := 0%nat]} []), (0, 0), 1%nat.
  eexists _, 0%nat, _. cbn zeta. do 6 (split; [cbn; lia|]). split.
  { intros [x y] Hin. assert (x = 0 /\ (y = 0 \/ y = 1 \/ y = 2)) as (-> & [->|[->| ->]]) by (destruct Hin; cbn in *; lia); by vm_compute. }
  split; [by vm_compute|]. split.
  { intros [x y] Hc [x' y'] (Hne & H1 & H2) Hq.
    assert (x = 0 /\ (y = 0 \/ y = 1 \/ y = 2)) as (-> & [->|[->| ->]]) by (destruct Hc; cbn in *; lia);
    assert (x' = 0 /\ (y' = 0 \/ y' = 1 \/ y' = 2)) as (-> & [->|[->| ->]]) by (destruct Hq; cbn in *; lia); try done; cbn in *; lia. }
  split; [vm_compute; reflexivity|]. split; [vm_compute; reflexivity|]. done.
Qed.
Print Assumptions C80_border_refuted.
