(** Proofs about unit detection and loading. *)
From Verif Require Import Loader_model Loader_spec Container_spec Container_proof.
From Coq Require Import Lqa.
Local Open Scope Z_scope.

Lemma named_m u : named metre_names u <-> lower u ∈ GDAL_METERS.
Proof.
  unfold named. split.
  - intros (n & Hn & Hw). apply same_word_lower in Hw. rewrite Hw. unfold metre_names in Hn.
    repeat (apply elem_of_cons in Hn as [->|Hn]; [by apply (bool_decide_unpack _); vm_compute|]). by apply elem_of_nil in Hn.
  - intros H. exists (lower u). split; [done|]. apply same_word_lower. revert H. unfold GDAL_METERS. generalize (lower u). intros v Hn.
    repeat (apply elem_of_cons in Hn as [->|Hn]; [done|]). by apply elem_of_nil in Hn.
Qed.
Lemma lower_char_not_upper a : lower_char a <> "U"%char.
Proof. destruct a as [[] [] [] [] [] [] [] []]; by vm_compute. Qed.
Lemma named_ft u : named foot_names u <-> lower u ∈ GDAL_FEET.
Proof.
  unfold named. split.
  - intros (n & Hn & Hw). apply same_word_lower in Hw. rewrite Hw. unfold foot_names in Hn.
    repeat (apply elem_of_cons in Hn as [->|Hn]; [by apply (bool_decide_unpack _); vm_compute|]). by apply elem_of_nil in Hn.
  - intros H. assert (lower u ∈ foot_names) as Hf.
    { unfold GDAL_FEET in H. do 6 (apply elem_of_cons in H as [->|H]; [by apply (bool_decide_unpack _); vm_compute|]).
      apply elem_of_list_singleton in H. destruct u as [|a u]; [done|]. cbn [lower] in H. injection H as H _.
      by destruct (lower_char_not_upper a). }
    exists (lower u). split; [done|]. apply same_word_lower. revert Hf. unfold foot_names. generalize (lower u). intros v Hn.
    repeat (apply elem_of_cons in Hn as [->|Hn]; [done|]). by apply elem_of_nil in Hn.
Qed.

Lemma named_app l1 l2 u : named (l1 ++ l2) u <-> named l1 u \/ named l2 u.
Proof.
  unfold named. split.
  - intros (n & Hn & Hw). apply elem_of_app in Hn as [Hn|Hn]; [left|right]; by exists n.
  - intros [(n & Hn & Hw)|(n & Hn & Hw)]; exists n; (split; [apply elem_of_app; auto|done]).
Qed.
Lemma near_bool u f eps : Qlt_bool (Qabs (u - f)) eps = true <-> (f - eps < u < f + eps)%Q.
Proof.
  unfold Qlt_bool. rewrite negb_true_iff. split.
  - intros E. assert (~ (eps <= Qabs (u - f)))%Q as H by (intros H; apply Qle_bool_iff in H; congruence).
    apply Qnot_le_lt, Qabs_Qlt_condition in H. lra.
  - intros H. destruct (Qle_bool _ _) eqn:E; [|done]. apply Qle_bool_iff in E. exfalso.
    assert (Qabs (u - f) < eps)%Q as H2 by (apply Qabs_Qlt_condition; lra). lra.
Qed.
Lemma conf_lt_rank a b : conf_lt a b = true <-> (rank a < rank b)%nat.
Proof. destruct a, b; cbn; split; intros; try done; lia. Qed.

Lemma detect_linear_ok d u c : ~ named (metre_names ++ foot_names) (ds_unit d) -> detect_linear d = (u, c) -> detected d u c.
Proof.
  intros Hn. unfold detect_linear.
  assert (forall P1 : ~ unit_near d 1 (1#1000000000), forall P2 : ~ unit_near d (3048#10000) (1#1000000), heuristic d = (u, c) -> detected d u c) as Hh.
  { intros P1 P2. unfold heuristic. destruct (ds_range d) as [[r|]|] eqn:Er.
    - destruct (Qle_bool r (8900#1)) eqn:E; intros [= <- <-].
      + apply Qle_bool_iff in E. apply by_default; try done; [|congruence]. intros (r' & Er' & Hr). rewrite Er in Er'. injection Er' as <-. lra.
      + apply by_height; try done. exists r. split; [done|]. apply Qnot_le_lt. intros H. apply Qle_bool_iff in H. congruence.
    - intros [= <- <-]. apply by_default; try done; [|congruence]. intros (r' & Er' & Hr). congruence.
    - intros [= <- <-]. by apply by_nothing. }
  assert (forall f e, ds_srs d = None \/ (exists g, ds_srs d = Some (true, g)) -> ~ unit_near d f e) as Hno.
  { intros f e [E|[g E]] (x & E' & _); congruence. }
  destruct (ds_srs d) as [[[|] f]|] eqn:Es.
  - apply Hh; apply Hno; right; by eexists.
  - destruct (Qlt_bool (Qabs (f - 1)) _) eqn:E1.
    { intros [= <- <-]. apply by_unit_m; [done|]. exists f. split; [done|]. by apply near_bool. }
    assert (~ unit_near d 1 (1#1000000000)) as N1.
    { intros (x & Ex & Hx). rewrite Es in Ex. injection Ex as <-. apply near_bool in Hx. congruence. }
    destruct (Qlt_bool (Qabs (f - METERS_PER_FOOT)) _) eqn:E2.
    { intros [= <- <-]. apply by_unit_ft; [done|done|]. exists f. split; [done|]. by apply near_bool. }
    apply Hh; [done|]. intros (x & Ex & Hx). rewrite Es in Ex. injection Ex as <-. apply near_bool in Hx. unfold METERS_PER_FOOT in E2. congruence.
  - apply Hh; apply Hno; by left.
Qed.
Lemma detect_ok d u c : detect_vertical_unit d = (u, c) -> detected d u c.
Proof.
  unfold detect_vertical_unit. destruct (decide (ds_unit d = ""%string)) as [E|E].
  - apply detect_linear_ok. rewrite named_app, named_m, named_ft, E. cbn. unfold GDAL_METERS, GDAL_FEET.
    intros [H|H]; repeat (apply elem_of_cons in H as [H|H]; [discriminate|]); by apply elem_of_nil in H.
  - destruct (decide (lower (ds_unit d) ∈ GDAL_METERS)) as [H|H].
    { intros [= <- <-]. by apply by_band_m, named_m. }
    destruct (decide (lower (ds_unit d) ∈ GDAL_FEET)) as [H2|H2].
    { intros [= <- <-]. apply by_band_ft; [by rewrite named_m|by apply named_ft]. }
    apply detect_linear_ok. rewrite named_app, named_m, named_ft. by intros [?|?].
Qed.
Lemma detected_fun d u c u' c' : detected d u c -> detected d u' c' -> u = u' /\ c = c'.
Proof.
  assert (forall u, named metre_names u -> named (metre_names ++ foot_names) u) as H1 by (intros; apply named_app; by left).
  assert (forall u, named foot_names u -> named (metre_names ++ foot_names) u) as H2 by (intros; apply named_app; by right).
  assert (too_tall d -> ds_range d <> None) as H3 by (intros (r & E & _); congruence).
  intros [] []; naive_solver.
Qed.
Lemma detect_spec d u c : detect_vertical_unit d = (u, c) <-> detected d u c.
Proof.
  split; [apply detect_ok|]. intros H. destruct (detect_vertical_unit d) as [u' c'] eqn:E. apply detect_ok in E.
  destruct (detected_fun _ _ _ _ _ H E) as [-> ->]. done.
Qed.

Lemma load_spec warp force mc d :
  (forall r, gdal_load warp force mc d = Ok r <-> r = (d, warp d) /\ settled force mc d METERS) /\
  (gdal_load warp force mc d = Err AttributeError <-> exists u, settled force mc d u /\ u <> METERS) /\
  (gdal_load warp force mc d = Err OtherError <-> forall u, ~ settled force mc d u).
Proof.
  assert ((exists u, settled force mc d u /\ (forall v, settled force mc d v -> v = u) /\
      gdal_load warp force mc d = if decide (u = METERS) then Ok (d, warp d) else Err AttributeError) \/
    ((forall u, ~ settled force mc d u) /\ gdal_load warp force mc d = Err OtherError)) as H.
  { unfold gdal_load. destruct force as [f|]; cbn [rbind].
    - left. exists f. split; [done|]. split; [done|]. case_decide; [done|]. done.
    - destruct (detect_vertical_unit d) as [u c] eqn:E. apply detect_ok in E. destruct (conf_lt c mc) eqn:E1; cbn [orb].
      + right. split; [|done]. intros v (c' & H1 & H2 & _). destruct (detected_fun _ _ _ _ _ E H1) as [-> ->]. apply conf_lt_rank in E1. lia.
      + assert (~ (rank c < rank mc)%nat) as Hr by (intros Hr; apply conf_lt_rank in Hr; congruence).
        destruct (bool_decide (u = UNKNOWN)) eqn:E2.
        * apply bool_decide_eq_true in E2 as ->. right. split; [|done]. intros v (c' & H1 & H2 & H3).
          by destruct (detected_fun _ _ _ _ _ E H1) as [<- _].
        * apply bool_decide_eq_false in E2. left. exists u. split; [exists c; split; [done|]; split; [lia|done]|]. split.
          -- intros v (c' & H1 & _). by destruct (detected_fun _ _ _ _ _ E H1).
          -- cbn [rbind]. by case_decide. }
  destruct H as [(u & Hu & Hf & ->)|[Hn ->]].
  - destruct (decide (u = METERS)) as [->|Hne].
    + split; [intros r; split; [intros [= <-]; done|intros [-> _]; done]|]. split; [split; [done|]|split; [done|]].
      * intros (v & Hv & Hne). by destruct (Hf v Hv).
      * intros H. by destruct (H METERS).
    + split; [intros r; split; [done|intros [_ Hs]; by destruct Hne; rewrite (Hf _ Hs)]|]. split; [split; [by intros _; exists u|done]|].
      split; [done|]. intros H. by destruct (H u).
  - split; [intros r; split; [done|intros [_ H]; by destruct (Hn _ H)]|]. split; [|done]. split; [done|]. intros (u & Hu & _). by destruct (Hn u).
Qed.
