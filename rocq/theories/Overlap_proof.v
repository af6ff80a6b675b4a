(** Two tiles of one raster. *)
From Verif Require Import Base_model Raster_model Analyze_model Tile_spec Overlap_spec Feature_spec Tile_proof Raster_spec.
Local Open Scope Z_scope.

Lemma shift_offset o1 o2 c : shift o1 (shift (offset o1 o2) c) = shift o2 c.
Proof. unfold shift, offset. cbn. apply (f_equal2 pair); lia. Qed.
Lemma shift_pt_offset o1 o2 z : shift_pt o1 (shift_pt (offset o1 o2) z) = shift_pt o2 z.
Proof. unfold shift_pt. cbn. apply (f_equal2 pair); [|done]. apply shift_offset. Qed.
Lemma shift_one o a b : shift o a = shift o b -> a = b.
Proof. destruct a, b. unfold shift. cbn. intros [= H1 H2]. apply (f_equal2 pair); lia. Qed.

Lemma same_place_offset o1 o2 f1 f f2 : same_place o1 f1 f ->
  same_place o2 f2 f <-> same_place (offset o1 o2) f2 f1.
Proof.
  intros [A1 A2 A3 A4 A5]. split; intros [B1 B2 B3 B4 B5].
  - split.
    + apply (shift_one o1). by rewrite shift_offset, A1.
    + by rewrite B2, A2.
    + intros c. by rewrite B3, A3, shift_offset.
    + intros g Hg. destruct (B4 g Hg) as (h & Hh & H). destruct (A5 h Hh) as (g1 & Hg1 & H1). exists g1. split; [done|].
      intros z. by rewrite H, H1, shift_pt_offset.
    + intros g1 Hg1. destruct (A4 g1 Hg1) as (h & Hh & H1). destruct (B5 h Hh) as (g & Hg & H). exists g. split; [done|].
      intros z. by rewrite H, H1, shift_pt_offset.
  - split.
    + by rewrite <-A1, <-B1, shift_offset.
    + by rewrite B2, A2.
    + intros c. by rewrite B3, A3, shift_offset.
    + intros g Hg. destruct (B4 g Hg) as (g1 & Hg1 & H). destruct (A4 g1 Hg1) as (h & Hh & H1). exists h. split; [done|].
      intros z. by rewrite H, H1, shift_pt_offset.
    + intros h Hh. destruct (A5 h Hh) as (g1 & Hg1 & H1). destruct (B5 g1 Hg1) as (g & Hg & H). exists g. split; [done|].
      intros z. by rewrite H, H1, shift_pt_offset.
Qed.

Lemma exactly_one_iff {A} (P Q : A -> Prop) l : (forall a, P a <-> Q a) -> exactly_one P l -> exactly_one Q l.
Proof.
  intros H (i & a & Hi & Ha & Hu). exists i, a. split; [done|]. split; [by apply H|].
  intros j b Hj Hb. apply (Hu j b Hj). by apply H.
Qed.

Lemma inside_second o1 o2 t2 f1 f : same_place o1 f1 f -> inside_other o1 o2 t2 f1 -> inside_tile o2 t2 f.
Proof.
  intros H Hi c Hc.
  assert (c = shift o1 (shift_back o1 c)) as E. { unfold shift, shift_back. destruct c. cbn. apply (f_equal2 pair); lia. }
  rewrite E in Hc. apply (sp_cells _ _ _ H) in Hc. apply Hi in Hc.
  assert (shift (offset o2 o1) (shift_back o1 c) = shift_back o2 c) as <-; [|done].
  unfold shift, shift_back, offset. cbn. apply (f_equal2 pair); lia.
Qed.

Lemma first_elem {A} (P : A -> Prop) l : exactly_one P l -> exists a, a ∈ l /\ P a.
Proof. intros (i & a & Hi & Ha & _). exists a. split; [|done]. by apply elem_of_list_lookup_2 in Hi. Qed.

Lemma tiles_agree fp orc1 orc2 o1 o2 m t1 t2 :
  map_ok m -> map_ok t1 -> map_ok t2 -> paths_found fp m -> paths_found fp t1 -> paths_found fp t2 ->
  tile o1 m t1 -> tile o2 m t2 ->
  exists su1 sa1 ru1 su2 sa2 ru2,
    analyze fp orc1 t1 = Ok (su1, sa1, ru1) /\ analyze fp orc2 t2 = Ok (su2, sa2, ru2) /\
    (forall f1, f1 ∈ su1 -> (forall c, covers f1 c -> inner_cell t1 c) -> inside_other o1 o2 t2 f1 ->
       exactly_one (fun f2 => same_place (offset o1 o2) f2 f1) su2) /\
    (forall f1, f1 ∈ sa1 -> (forall c, covers f1 c -> inner_cell t1 c) -> inside_other o1 o2 t2 f1 ->
       exactly_one (fun f2 => same_place (offset o1 o2) f2 f1) sa2).
Proof.
  intros Hm Hm1 Hm2 Hp Hp1 Hp2 Ht1 Ht2.
  destruct (tile_features fp orc1 orc1 o1 m t1 Hm Hm1 Hp Hp1 Ht1) as (su & sa & ru & su1 & sa1 & ru1 & E & E1 & A1 & _ & A2 & _).
  destruct (tile_features fp orc1 orc2 o2 m t2 Hm Hm2 Hp Hp2 Ht2) as (su' & sa' & ru' & su2 & sa2 & ru2 & E' & E2 & _ & B1 & _ & B2 & _).
  rewrite E in E'. injection E' as <- <- <-.
  exists su1, sa1, ru1, su2, sa2, ru2. split; [done|]. split; [done|]. split.
  - intros f1 Hf1 Hin Hin2. destruct (first_elem _ _ (A1 f1 Hf1 Hin)) as (f & Hf & Hs).
    eapply exactly_one_iff; [intros f2; by apply same_place_offset|].
    apply (B1 f Hf). by eapply inside_second.
  - intros f1 Hf1 Hin Hin2. destruct (first_elem _ _ (A2 f1 Hf1 Hin)) as (f & Hf & Hs).
    eapply exactly_one_iff; [intros f2; by apply same_place_offset|].
    apply (B2 f Hf). by eapply inside_second.
Qed.
