(** Climbing in a part of a raster. *)
From Verif Require Import Base_model Raster_model Climb_model Raster_spec Tile_spec Ascent_spec Raster_proof.
Local Open Scope Z_scope.

Lemma shift_inj o a b : shift o a = shift o b -> a = b.
Proof. destruct a, b. unfold shift. cbn. intros [= H1 H2]. f_equal; lia. Qed.

Section part.
  Context (o : xy) (w h : Z) (m : datamap).
  Context (Ho1 : 0 <= o.1) (Ho2 : 0 <= o.2) (Hw : o.1 + w <= dm_max_x m) (Hh : o.2 + h <= dm_max_y m).
  Notation t := (cut_out o w h m).

  Lemma part_in c : in_map t c -> in_map m (shift o c).
  Proof. unfold in_map, shift. cbn. lia. Qed.
  Lemma part_elev c : elev t c = elev m (shift o c).
  Proof. done. Qed.
  Lemma inner_nbr c q : inner_cell t c -> adj8 c q -> in_map t q.
  Proof. unfold inner_cell, adj8, in_map. intros H (_ & H1 & H2). cbn in *. lia. Qed.

  Lemma part_val q : in_map t q -> nb_val t q = Some (elev t q) /\ nb_val m (shift o q) = Some (elev t q).
  Proof.
    intros H. unfold nb_val. destruct q as [x y]. cbn [fst snd].
    assert (coord_inbounds t x y = true) as -> by (by apply coord_inbounds_spec).
    pose proof (part_in _ H) as H'. unfold shift in *. cbn [fst snd] in *.
    assert (coord_inbounds m (x + o.1) (y + o.2) = true) as -> by (by apply coord_inbounds_spec).
    done.
  Qed.

  Definition sh (e : xy * option Z) : xy * option Z := (shift o e.1, e.2).
  Lemma part_nbrs c : inner_cell t c -> full_nbrs m (shift o c).1 (shift o c).2 = map sh (full_nbrs t c.1 c.2).
  Proof.
    intros H. destruct c as [x y]. unfold full_nbrs, shift_of. rewrite map_map. unfold shift at 1 2. cbn [fst snd].
    apply map_ext_in. intros [dx dy] Hd. cbn.
    assert (adj8 (x, y) (x + dx, y + dy)) as Ha.
    { apply elem_of_list_In in Hd. unfold FULL_SHIFT_LIST in Hd.
      repeat (apply elem_of_cons in Hd as [Hd|Hd]; [injection Hd as -> ->; split; [intros [=]; lia|cbn; lia]|]). by apply elem_of_nil in Hd. }
    pose proof (inner_nbr _ _ H Ha) as Hin. destruct (part_val _ Hin) as [E1 E2].
    unfold sh. cbn [fst snd].
    assert (shift o (x + dx, y + dy) = (x + o.1 + dx, y + o.2 + dy)) as Es. { unfold shift. cbn. f_equal; lia. }
    rewrite Es in E2. rewrite E1, E2, Es. done.
  Qed.

  Definition sb (b : pte * Q) : pte * Q := (shift_pt o b.1, b.2).
  Lemma part_loop c pe ns : forall best,
    steepest_loop m (shift o c).1 (shift o c).2 pe (map sh ns) (sb <$> best) =
    (let* r := steepest_loop t c.1 c.2 pe ns best in Ok (sb <$> r)).
  Proof.
    induction ns as [|[[x y] oe] ns IH]; intros best; [done|]. change (map sh ((x, y, oe) :: ns)) with ((x + o.1, y + o.2, oe) :: map sh ns). cbn [steepest_loop].
    destruct oe as [e|]; [|apply IH]. destruct (e <? pe); [apply IH|].
    replace ((shift o c).1 - (x + o.1)) with (c.1 - x) by (unfold shift; cbn; lia).
    replace ((shift o c).2 - (y + o.2)) with (c.2 - y) by (unfold shift; cbn; lia).
    change (dm_slope t) with (dm_slope m). destruct (dm_slope m (c.1 - x) (c.2 - y) pe e) as [s|]; [|done]. cbn [rbind].
    assert (match sb <$> best with None => Qle_bool 0 s | Some (_, s0) => negb (Qle_bool s s0) end =
            match best with None => Qle_bool 0 s | Some (_, s0) => negb (Qle_bool s s0) end) as -> by (by destruct best as [[? ?]|]).
    destruct (match best with None => _ | Some _ => _ end); [|apply IH].
    rewrite <-IH. done.
  Qed.

  Lemma part_steepest c : inner_cell t c ->
    steepestNeighbor m (shift o c).1 (shift o c).2 = (let* r := steepestNeighbor t c.1 c.2 in Ok (shift_answer o r)).
  Proof.
    intros H. assert (in_map t c) as Hin. { destruct H. unfold in_map. cbn in *. lia. }
    unfold steepestNeighbor, dm_get. rewrite !iterateFull_eq.
    rewrite (np_read_inb t c.1 c.2) by (by destruct c).
    rewrite (np_read_inb m _ _) by (by apply part_in in Hin; destruct (shift o c)). cbn [rbind].
    rewrite (part_nbrs c H). change (dm_cell m (shift o c).1 (shift o c).2) with (elev m (shift o c)).
    change (dm_cell t c.1 c.2) with (elev m (shift o c)).
    rewrite (part_loop c _ _ None : _ = _). by destruct (steepest_loop t c.1 c.2 _ _ None) as [[[? ?]|]|].
  Qed.

  Lemma part_steepest_at c sn : inner_cell t c -> steepestNeighbor t c.1 c.2 = Ok (Some sn) ->
    adj8 c (pt_xy sn) /\ in_map t (pt_xy sn) /\ pt_e sn = elev t (pt_xy sn).
  Proof.
    intros H. assert (in_map t c) as Hin. { destruct H. unfold in_map. cbn in *. lia. }
    unfold steepestNeighbor, dm_get. rewrite iterateFull_eq, np_read_inb by (by destruct c). cbn [rbind].
    generalize (dm_cell t c.1 c.2). intros pe.
    assert (forall ns, ns ⊆ full_nbrs t c.1 c.2 -> forall best r, steepest_loop t c.1 c.2 pe ns best = Ok r ->
      (forall b, best = Some b -> (pt_xy b.1, Some (pt_e b.1)) ∈ full_nbrs t c.1 c.2) ->
      forall b, r = Some b -> (pt_xy b.1, Some (pt_e b.1)) ∈ full_nbrs t c.1 c.2) as HL.
    { induction ns as [|[[x y] oe] ns IH]; intros Hs best r; cbn [steepest_loop]; [by intros [= <-]|].
      assert (ns ⊆ full_nbrs t c.1 c.2) as Hs' by (intros z Hz; apply Hs; by right).
      destruct oe as [e|]; [|by apply IH]. destruct (e <? pe); [by apply IH|].
      destruct (dm_slope t (c.1 - x) (c.2 - y) pe e) as [s|]; [|done]. cbn [rbind].
      destruct (match best with None => _ | Some _ => _ end); [|by apply IH].
      intros E Hb. apply (IH Hs' _ _ E). intros b [= <-]. cbn. apply Hs. by left. }
    destruct (steepest_loop t c.1 c.2 pe _ None) as [r|] eqn:E; [|done]. cbn [rbind]. intros [= Er].
    destruct r as [b|]; [|done]. cbn in Er. injection Er as <-.
    pose proof (HL _ (reflexivity _) _ _ E ltac:(done) b eq_refl) as Hel.
    destruct c as [x y]. apply elem_of_full_nbrs in Hel as [Ha Hrep]. split; [done|].
    pose proof (inner_nbr _ _ H Ha) as Hq. split; [done|].
    destruct Hrep as [[_ Hv]|[Hv _]]; [|done]. by injection Hv.
  Qed.

  Lemma extend_log d cs : forall s, cs_log (sd_extend d cs s) = cs_log s ++ map (pair d) cs.
  Proof.
    induction cs as [|c cs IH]; intros s; [by rewrite app_nil_r|]. cbn [sd_extend foldl]. unfold sd_extend in IH.
    rewrite IH. unfold sd_append. cbn. by rewrite <-app_assoc.
  Qed.
  Lemma extend_table d cs : forall s c, cs_table (sd_extend d cs s) !! c = if decide (c ∈ cs) then Some d else cs_table s !! c.
  Proof.
    induction cs as [|x cs IH]; intros s c; [done|]. cbn [sd_extend foldl]. unfold sd_extend in IH. rewrite IH. unfold sd_append. cbn.
    destruct (decide (c ∈ cs)) as [Hc|Hc].
    - rewrite decide_True by (by right). done.
    - destruct (decide (c = x)) as [->|Hx].
      + rewrite decide_True by (by left). by rewrite lookup_insert.
      + rewrite decide_False by (by intros [?|?]%elem_of_cons). by rewrite lookup_insert_ne.
  Qed.

  Lemma climbed_recorded near fuel : forall cur climbed s d s', climb_loop near t fuel cur climbed s = Ok (Some d, s') ->
    forall c, c ∈ climbed -> cs_table s' !! c = Some d.
  Proof.
    induction fuel as [|fuel IH]; intros cur climbed s d s'; [done|]. cbn [climb_loop].
    destruct (steepestNeighbor t (pt_x cur) (pt_y cur)) as [[sn|]|]; [|done..]. cbn [rbind].
    destruct (cs_table s !! pt_xy sn) as [d0|].
    { intros [= <- <-] c Hc. by rewrite extend_table, decide_True. }
    destruct (pt_e sn =? pt_e cur).
    - destruct (equalHeightBlob t (pt_x sn) (pt_y sn) (pt_e sn)) as [b|]; [|done]. cbn [rbind].
      destruct (foldM _ _ s) as [s1|]; [|done]. cbn [rbind]. destruct (s_map near _ _) as [cl|]; [|done]. cbn [rbind].
      destruct (assign_flat cl s1) as [s2|]; [|done]. cbn [rbind]. destruct (cs_table s2 !! pt_xy sn) as [d0|]; [|done].
      intros [= <- <-] c Hc. by rewrite extend_table, decide_True.
    - intros E c Hc. apply (IH _ _ _ _ _ E). apply elem_of_app. by left.
  Qed.

  Lemma extend_same d cs st sm : same_records o t st sm -> same_records o t (sd_extend d cs st) (sd_extend d (map (shift o) cs) sm).
  Proof.
    intros H c Hc. rewrite !extend_table, (H c Hc).
    destruct (decide (c ∈ cs)) as [Hin|Hin].
    - rewrite decide_True; [done|]. apply elem_of_list_fmap. by exists c.
    - rewrite decide_False; [done|]. intros (x & E & Hx)%elem_of_list_fmap. apply shift_inj in E as ->. done.
  Qed.

  Section run.
    Context (near near' : searches) (st sm : climb_state) (Hsame : same_records o t st sm).

    Lemma part_loop_climb fuel : forall fuel' cur climbed d st', (fuel <= fuel')%nat ->
      climb_loop near t fuel cur climbed st = Ok (Some d, st') ->
      pt_xy cur ∈ climbed -> pt_e cur = elev t (pt_xy cur) -> (forall c, c ∈ climbed -> cs_table st !! c = None) ->
      (forall c, is_Some (cs_table st' !! c) -> cs_table st !! c = None -> inner_cell t c /\ untied t c) ->
      exists cs, st' = sd_extend d cs st /\
        climb_loop near' m fuel' (shift_pt o cur) (map (shift o) climbed) sm = Ok (Some d, sd_extend d (map (shift o) cs) sm) /\
        (forall c, c ∈ cs -> inner_cell t c).
    Proof.
      induction fuel as [|fuel IH]; intros [|fuel'] cur climbed d st' Hf; [done|done|lia|]. intros E Hcur Hec Hun Hnew.
      assert (inner_cell t (pt_xy cur) /\ untied t (pt_xy cur)) as [Hin Hnt].
      { apply Hnew; [|by apply Hun]. eexists. exact (climbed_recorded _ _ _ _ _ _ _ E _ Hcur). }
      assert (forall c, c ∈ climbed -> inner_cell t c) as Hinner.
      { intros c Hc. apply Hnew; [|by apply Hun]. eexists. exact (climbed_recorded _ _ _ _ _ _ _ E _ Hc). }
      revert E. cbn [climb_loop].
      pose proof (part_steepest (pt_xy cur) Hin) as Hst.
      change (pt_x (shift_pt o cur)) with (shift o (pt_xy cur)).1. change (pt_y (shift_pt o cur)) with (shift o (pt_xy cur)).2.
      rewrite Hst. change (pt_xy cur).1 with (pt_x cur). change (pt_xy cur).2 with (pt_y cur).
      destruct (steepestNeighbor t (pt_x cur) (pt_y cur)) as [[sn|]|] eqn:Esn; [|done..]. cbn [rbind shift_answer fmap option_fmap option_map].
      destruct (part_steepest_at (pt_xy cur) sn Hin Esn) as (Ha & Hq & Hv).
      change (pt_xy (shift_pt o sn)) with (shift o (pt_xy sn)). rewrite <-(Hsame _ Hq).
      destruct (cs_table st !! pt_xy sn) as [d0|] eqn:Et.
      { intros [= <- <-]. exists climbed. done. }
      change (pt_e (shift_pt o sn)) with (pt_e sn). change (pt_e (shift_pt o cur)) with (pt_e cur).
      assert ((pt_e sn =? pt_e cur) = false) as ->.
      { apply Z.eqb_neq. rewrite Hv, Hec. by apply Hnt. }
      intros E. destruct (IH fuel' sn (climbed ++ [pt_xy sn]) d st') as (cs & E1 & E2 & E3); [lia|done|..].
      - apply elem_of_app. right. by left.
      - done.
      - intros c [Hc|Hc%elem_of_list_singleton]%elem_of_app; [by apply Hun|by subst].
      - done.
      - exists cs. split; [done|]. split; [|done]. rewrite <-E2. f_equal. by rewrite map_app.
    Qed.

    Lemma part_climb p d st' : 0 <= w -> 0 <= h -> in_map t p ->
      climb near t (p, elev t p) st = Ok (Some d, st') ->
      (forall c, is_Some (cs_table st' !! c) -> cs_table st !! c = None -> inner_cell t c /\ untied t c) ->
      exists cs sm', climb near' m (shift o p, elev m (shift o p)) sm = Ok (Some d, sm') /\
        cs_log st' = cs_log st ++ map (pair d) cs /\ cs_log sm' = cs_log sm ++ map (pair d) (map (shift o) cs) /\
        same_records o t st' sm'.
    Proof.
      intros Hw0 Hh0 Hp. unfold climb. change (pt_xy (shift o p, elev m (shift o p))) with (shift o p).
      change (pt_xy (p, elev t p)) with p. rewrite <-(Hsame p Hp).
      destruct (cs_table st !! p) as [d0|] eqn:E0.
      { intros [= <- <-] _. exists [], sm. cbn. rewrite !app_nil_r. done. }
      intros E Hnew. destruct (part_loop_climb (climb_fuel t) (climb_fuel m) (p, elev t p) [p] d st') as (cs & E1 & E2 & _); [|done|..].
      - unfold climb_fuel. apply le_n_S. apply Z2Nat.inj_le; cbn; nia.
      - by left.
      - done.
      - intros c ->%elem_of_list_singleton. done.
      - done.
      - exists cs, (sd_extend d (map (shift o) cs) sm). split; [exact E2|]. rewrite E1, !extend_log. split; [done|]. split; [done|].
        by apply extend_same.
    Qed.
  End run.
End part.
