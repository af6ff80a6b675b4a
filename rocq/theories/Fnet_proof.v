(** The network of a saddle built with the searches in binary64. *)
From Verif Require Import Tree_spec Base_model Raster_model Analyze_model Closest_model Network_model Float_model Float_spec Float_proof
  Slope_spec Slope_proof Near_model Near_spec Near_proof Near_run_proof Fsearch_model Fsearch_spec Fsearch_proof
  Closest_spec Closest_proof Tree_proof Network_proof Fnet_spec Raster_spec.
From Flocq Require Import Core BinarySingleNaN.
From Coq Require Import Reals Lra Psatz Qreals.
Local Open Scope R_scope.

(** Squares order the lengths. *)
Lemma square_order (d d' : b64) : is_finite d = true -> is_finite d' = true -> 0 <= B2R d -> 0 <= B2R d' ->
  (f_square d <= f_square d')%Q <-> B2R d <= B2R d'.
Proof.
  intros F F' P P'. split; intros H.
  - apply Qle_Rle in H. rewrite !square_of in H by done. nra.
  - apply Rle_Qle. rewrite !square_of by done. nra.
Qed.
Lemma near_nonneg d h : 0 <= h -> near d h -> 0 <= B2R d.
Proof. intros Hh [_ [H _]]. pose proof u_small. nra. Qed.

Section net.
  Context (hyp : b64 -> b64 -> b64) (kd : list xy -> xy -> nat * b64) (m : datamap) (g1 g5 : b64).
  Hypothesis HL : float_library hyp kd.
  Hypothesis HR : float_raster m g1 g5.
  Notation fs := (float_searches hyp g1 g5 kd).
  Notation root p t := (sqrt (Q2R (distance2 m (pt_xy p) (pt_xy t)))).
  Context (hpn : list (list pte)).
  Hypothesis Hne : forall g, g ∈ hpn -> g <> [].
  Hypothesis Hin : forall g p, g ∈ hpn -> p ∈ g -> in_map m (pt_xy p).

  Lemma root_sym p t : root p t = root t p.
  Proof. f_equal. apply Qeq_eqR, distance2_sym. Qed.

  Definition float_length (p t : pte) (d2 : Q) : Prop :=
    in_map m (pt_xy p) /\ in_map m (pt_xy t) /\ exists d, d2 = f_square d /\ near d (root p t).

  Lemma float_found : pairs_found float_length fs m hpn.
  Proof.
    intros us them Hus Hth. cbn [s_pair float_searches].
    destruct (float_pair hyp kd m g1 g5 HL HR us them) as (p & t & d & -> & Hp & Ht & N); [intros p Hp; exact (Hin us p Hus Hp)|intros p Hp; exact (Hin them p Hth Hp)|by apply Hne|by apply Hne|].
    cbn [rbind fst snd option_map]. exists p, t, (f_square d). split; [done|]. split; [done|]. split; [done|].
    pose proof (Hin us p Hus Hp). pose proof (Hin them t Hth Ht).
    split; [by apply (square_small m g1 g5 HR d (pt_xy p) (pt_xy t))|]. split; (split; [done|split; [done|]]; exists d; split; [done|]); [done|by rewrite root_sym].
  Qed.

  Hypothesis Hsmall : forall g h, g ∈ hpn -> h ∈ hpn -> (length g + length h < 100)%nat \/ square_pixels m.

  (** The length of the link between two groups is at most a length computed for
      points that are no farther apart than the given ones. *)
  Definition at_most (w : Q) (a b : pte) : Prop :=
    exists p q d, in_map m (pt_xy p) /\ in_map m (pt_xy q) /\ near d (root p q) /\ (w <= f_square d)%Q /\
      (distance2 m (pt_xy p) (pt_xy q) <= distance2 m (pt_xy a) (pt_xy b))%Q.

  Lemma pair_least us them a b : us ∈ hpn -> them ∈ hpn -> a ∈ us -> b ∈ them ->
    at_most (match s_pair fs m us them with Ok c => cp_d2 c | Err _ => 0%Q end) a b.
  Proof.
    intros Hus Hth Ha Hb. pose proof (fl_hypot _ _ HL) as Hh. pose proof (fl_zero _ _ HL) as Hz. pose proof (fl_tree _ _ HL) as Hk.
    pose proof (fr_g1 _ _ _ HR) as E1. pose proof (fr_g5 _ _ _ HR) as E5. pose proof (fr_usual1 _ _ _ HR) as S1. pose proof (fr_usual5 _ _ _ HR) as S5.
    assert (Uu : usual_cells us) by (intros p Hp; apply (usual_in m g1 g5 HR); exact (Hin us p Hus Hp)).
    assert (Ut : usual_cells them) by (intros p Hp; apply (usual_in m g1 g5 HR); exact (Hin them p Hth Hp)).
    pose proof (Hin us a Hus Ha) as Ia. pose proof (Hin them b Hth Hb) as Ib.
    cbn [s_pair float_searches]. unfold f_find_closest_points.
    destruct (Nat.ltb_spec (length us + length them) 100) as [Hl|Hl].
    - destruct (brute_pair hyp Hh Hz m g1 g5 E1 E5 S1 S5 us them a b Uu Ut Ha Hb) as (p & t & d & -> & Hp & Ht & N & Hmin).
      { by apply (fr_reach _ _ _ HR). }
      cbn [rbind fst snd option_map cp_d2]. destruct (Hmin a b Ha Hb) as (d' & N' & Hle). exists a, b, d'.
      split; [done|]. split; [done|]. split; [done|]. split; [|apply Qle_refl].
      apply square_order; [apply N|apply N'| | |done]; by eapply near_nonneg; [apply sqrt_pos|].
    - destruct (Hsmall us them Hus Hth) as [Hs|Hs]; [lia|].
      destruct (tree_pair hyp Hh Hz kd Hk m g1 g5 E1 E5 S1 S5 us them Uu Ut) as (p & t & d & -> & Hp & Ht & N & Hmin); [by apply Hne|by apply Hne|].
      cbn [rbind fst snd option_map cp_d2]. exists p, t, d. split; [exact (Hin us p Hus Hp)|]. split; [exact (Hin them t Hth Ht)|]. split; [done|].
      split; [apply Qle_refl|]. apply (square_le m g1 g5 E1 E5 S1 _ _ _ _ Hs). by apply Hmin.
  Qed.

  Lemma at_most_sym w a b : at_most w a b -> at_most w b a.
  Proof.
    intros (p & q & d & H1 & H2 & H3 & H4 & H5). exists p, q, d. split; [done|]. split; [done|]. split; [done|]. split; [done|].
    eapply Qle_trans; [exact H5|]. rewrite (distance2_sym m (pt_xy a)). apply Qle_refl.
  Qed.

  Lemma float_link_min i j g h p q : hpn !! i = Some g -> hpn !! j = Some h -> p ∈ g -> q ∈ h ->
    at_most (link_w fs m hpn i j) p q.
  Proof.
    intros Hg Hh Hp Hq. pose proof (elem_of_list_lookup_2 _ _ _ Hg) as Hg'. pose proof (elem_of_list_lookup_2 _ _ _ Hh) as Hh'.
    unfold link_w. destruct (Nat.le_gt_cases i j) as [Hij|Hij].
    - rewrite Nat.max_r, Nat.min_l by lia. rewrite Hg, Hh. apply at_most_sym. by apply pair_least.
    - rewrite Nat.max_l, Nat.min_r by lia. rewrite Hg, Hh. by apply pair_least.
  Qed.

  Hypothesis Hn : (2 <= length hpn)%nat.

  Lemma link_about l e : link_joins float_length hpn l e -> joins_about m hpn l e.
  Proof.
    intros (Hd & g & h & p & q & Hg & Hh & Hp & Hq & Hr & Hl & _ & _ & d & E & N). split; [done|].
    exists g, h, p, q. split; [done|]. split; [done|]. split; [done|]. split; [done|]. split; [done|]. split; [done|].
    cbv zeta. pose proof (sqrt_pos (Q2R (distance2 m (pt_xy p) (pt_xy q)))) as HP. pose proof (near_nonneg _ _ HP N) as H0.
    rewrite E, square_of, sqrt_square by (done || apply N). by apply (near_length d _ HP N).
  Qed.

  Lemma link_shorter l e a b : link_joins float_length hpn l e -> (vl_d2 l == link_w fs m hpn e.1 e.2)%Q ->
    at_most (link_w fs m hpn e.1 e.2) a b -> forall x, x.2 = (a, b) -> not_longer m l x.
  Proof.
    intros (_ & g & h & p & q & _ & _ & _ & _ & Hr & Hl & Ip & Iq & d & E & N) Hw (p' & q' & d' & Ip' & Iq' & N' & Hle & Hd) x Hx.
    intros p1 q1 Hp1 Hq1. rewrite Hr in Hp1. injection Hp1 as <-. rewrite Hl in Hq1. injection Hq1 as <-. rewrite Hx. cbn [fst snd].
    rewrite <- Hw, E in Hle. apply square_order in Hle; [|apply N|apply N'|by eapply near_nonneg; [apply sqrt_pos|]..].
    pose proof (fr_g1 _ _ _ HR) as E1. pose proof (fr_g5 _ _ _ HR) as E5. pose proof (fr_usual1 _ _ _ HR) as S1.
    split.
    - eapply Qle_trans; [exact (loose_pair m g1 g5 E1 E5 d d' p q p' q' N N' Hle)|]. unfold slack.
      apply Qmult_le_l; [reflexivity|done].
    - intros Hs. eapply Qle_trans; [|exact Hd].
      apply (square_pair m g1 g5 E1 E5 S1 d d' p q p' q' Hs); try done; by apply (usual_in m g1 g5 HR).
  Qed.

  Lemma float_network T : spanning_tree (length hpn) (map fst T) ->
    (forall i j p q, (i, j, (p, q)) ∈ T -> exists g h, hpn !! i = Some g /\ hpn !! j = Some h /\ p ∈ g /\ q ∈ h) ->
    exists links es, build_internal_tree fs m hpn = Ok links /\ Forall2 (joins_about m hpn) links es /\
      spanning_tree (length hpn) es /\ dominated (not_longer m) links T.
  Proof.
    intros HT Hmem.
    destruct (build_tree_ok float_length fs m hpn float_found Hn (fun e (t : (nat * nat) * (pte * pte)) => at_most (link_w fs m hpn e.1 e.2) t.2.1 t.2.2) T (map fst T))
      as (links & es & Hb & Hj & Hw & Hsp & ys & Hp & Hd).
    - intros a b c d y Hle (p & q & e & H1 & H2 & H3 & H4 & H5). exists p, q, e. split; [done|]. split; [done|]. split; [done|].
      split; [|done]. by eapply Qle_trans.
    - done.
    - exists T. split; [done|]. clear -Hmem Hne Hin Hsmall HL HR.
      assert (Hall : Forall (fun t => t ∈ T) T) by (by apply Forall_forall).
      revert Hall. generalize T at 2 3 4 as T0. induction T0 as [|t T0 IH]; intros Hall; [constructor|].
      apply Forall_cons in Hall as [Ht Hall]. cbn [map]. constructor; [|by apply IH].
      destruct t as [[i j] [p q]]. cbn. destruct (Hmem _ _ _ _ Ht) as (g & h & Hg & Hh & Hpg & Hqh).
      by eapply float_link_min.
    - exists links, es. split; [done|]. split; [|split; [done|]].
      + eapply Forall2_impl; [exact Hj|]. exact link_about.
      + exists ys. split; [done|]. clear Hb Hsp Hp. revert es Hj Hw ys Hd.
        induction links as [|l links IH]; intros es Hj Hw ys Hd.
        * inversion Hj; subst. inversion Hd; subst. constructor.
        * inversion Hj as [|? e ? es' J1 J2]; subst. inversion Hw as [|? ? ? ? W1 W2]; subst. inversion Hd as [|? y ? ys' D1 D2]; subst.
          constructor; [|by eapply IH]. eapply link_shorter; [exact J1|exact W1|exact D1|]. by destruct y as [? [? ?]].
  Qed.
End net.

(** ** The representation of lengths and positions *)
Lemma square_less (d d' : b64) : is_finite d = true -> is_finite d' = true -> 0 <= B2R d -> 0 <= B2R d' ->
  (f_square d < f_square d')%Q <-> Bltb d d' = true.
Proof.
  intros F F' P P'. rewrite ltb_finite by done. pose proof (square_order d' d F' F P' P) as H. split.
  - intros Hlt. apply Rlt_bool_true. apply Rnot_le_lt. intros Hle. apply H in Hle. by apply (Qlt_not_le _ _ Hlt).
  - intros Hlt. destruct (Rlt_bool_spec (B2R d) (B2R d')) as [Hr|Hr]; [|done]. apply Qnot_le_lt. intros Hle. apply H in Hle. lra.
Qed.

Lemma below_maxsize (d : b64) : is_finite d = true -> 0 <= B2R d -> B2R d < bpow radix2 63 -> B2R d < 9223372036854775807.
Proof.
  destruct d as [s|s| |s mm e He]; intros F P H; try discriminate F; [cbn; lra|].
  assert (s = false) as ->. { destruct s; [|done]. exfalso. assert (B2R (B754_finite true mm e He : b64) < 0) by (apply F2R_lt_0; reflexivity). lra. }
  assert (Hm : (Z.pos mm < 2 ^ 53)%Z).
  { clear -He. unfold SpecFloat.bounded in He. apply andb_prop in He as [He _]. apply Zeq_bool_eq in He.
    unfold SpecFloat.fexp, SpecFloat.emin in He. rewrite Digits.Zpos_digits2_pos in He.
    assert (Digits.Zdigits radix2 (Z.pos mm) <= 53)%Z by lia. apply (Digits.Zpower_gt_Zdigits radix2 53 (Z.pos mm)). lia. }
  unfold B2R, F2R in *. cbn [Fnum Fexp cond_Zopp] in *. destruct e as [|e|e].
  - cbn [bpow] in *. apply IZR_lt in Hm. change (2 ^ 53)%Z with 9007199254740992%Z in Hm. lra.
  - rewrite bp in H |- * by lia. rewrite bp, <- mult_IZR in H by lia. rewrite <- mult_IZR. apply lt_IZR in H. apply IZR_lt.
    change (Z.pos e) with (Z.pos e). replace (2 ^ Z.pos e)%Z with (2 * 2 ^ (Z.pos e - 1))%Z in * by (rewrite <- Z.pow_succ_r by lia; f_equal; lia).
    change (2 ^ 63)%Z with 9223372036854775808%Z in H. lia.
  - assert (bpow radix2 (Z.neg e) <= 1) by (change 1 with (bpow radix2 0); apply bpow_le; lia).
    pose proof (bpow_ge_0 radix2 (Z.neg e)). assert (0 < IZR (Z.pos mm)) by (apply IZR_lt; lia).
    apply IZR_lt in Hm. change (2 ^ 53)%Z with 9007199254740992%Z in Hm. nra.
Qed.
Lemma square_maxsize (d : b64) : is_finite d = true -> 0 <= B2R d -> (f_square d < maxsize2)%Q <-> f_closer d None = true.
Proof.
  intros F P. unfold f_closer. cbn [default]. destruct two63_ok as [F63 V63]. rewrite ltb_finite, V63 by done.
  assert (EM : Q2R maxsize2 = 9223372036854775807 * 9223372036854775807) by (unfold maxsize2, Q2R, inject_Z; cbn [Qnum Qden]; rewrite mult_IZR; lra).
  split.
  - intros H. apply Qlt_Rlt in H. rewrite square_of, EM in H by done. apply Rlt_bool_true.
    assert (B2R d < 9223372036854775807) by nra. rewrite bp by lia. change (2 ^ 63)%Z with 9223372036854775808%Z. lra.
  - intros H. destruct (Rlt_bool_spec (B2R d) (bpow radix2 63)) as [Hr|Hr]; [|done]. apply Rlt_Qlt. rewrite square_of, EM by done.
    pose proof (below_maxsize d F P Hr). nra.
Qed.

Lemma half_exact q k : (q == k # 2)%Q -> (0 <= k < 2 ^ 23)%Z -> half_way (f_half q) k.
Proof.
  intros E Hk. unfold f_half.
  assert (Qfloor (2 * q) = k) as ->.
  { transitivity (Qfloor (inject_Z k)); [|apply Qfloor_Z]. apply Qfloor_comp. rewrite E.
    unfold Qeq, Qmult, inject_Z. cbn [Qnum Qden]. change (Z.pos (1 * 2)) with 2%Z. lia. }
  assert (HF : F2R (Float radix2 k (-1)) = IZR k / 2) by (unfold F2R; cbn [Fnum Fexp]; simpl (bpow radix2 (-1)); lra).
  pose proof (binary_normalize_correct 53 1024 _ _ mode_NE k (-1) false) as HC. cbv zeta in HC. rewrite HF in HC.
  assert (G : round radix2 (SpecFloat.fexp 53 1024) (round_mode mode_NE) (IZR k / 2) = IZR k / 2).
  { apply round_generic; [apply valid_rnd_N|]. rewrite <- HF. apply generic_format_FLT. exists (Float radix2 k (-1)); [done| |vm_compute; congruence].
    cbn [Fnum]. change (radix2 ^ 53)%Z with (2 ^ 53)%Z. lia. }
  rewrite G in HC. rewrite Rlt_bool_true in HC.
  - destruct HC as (H1 & H2 & _). split; [done|]. split; [done|]. done.
  - rewrite Rabs_pos_eq by (assert (0 <= IZR k) by (apply IZR_le; lia); lra).
    apply Rle_lt_trans with (bpow radix2 23); [|apply bpow_lt; lia]. rewrite bp by lia.
    assert (0 <= IZR k <= IZR (2 ^ 23)) by (split; apply IZR_le; lia). lra.
Qed.
