(** The properties of a walk, put together. *)
From Verif Require Import Tree_spec Walk_model Raster_spec Raster_proof Raster_facts Contig_proof Blob_proof
  Closest_spec Closest_proof Feature_spec Scan_proof Feature_facts Nodata_proof Network_spec Rebuild_proof Climb_spec
  Climb_proof Climb_facts Graph_spec Graph_proof Walk_spec Walk_proof Synth_proof Links_proof Steps_proof One_proof
  Walk_facts Found_proof Again_proof.
From Coq Require Import ZifyBool.
Local Open Scope Z_scope.

Section walked.
  Variables (fpath : datamap -> list mpoint -> mpoint -> mpoint -> option (list mpoint * Q)).
  Variables (near : searches) (m : datamap).
  Hypotheses (Hf : mpaths_found fpath m) (Hnear : sound_searches near m) (Hok : map_ok m) (Hup : north_up m)
    (Hlow : climbable m) (Hpix : pixels_in_reach m) (Hreach : map_in_reach m).

  Lemma walk_claims w summits feats : walk_input m w summits feats ->
    match climb_from_saddles fpath near m w summits feats with
    | Ok s =>
        walk_links m (summit_cell w summits) (domain_saddles w) (length (w_links w)) (ws_world s) (ws_feats s) (ws_linkers s) /\
        walk_output w (ws_world s) feats (ws_feats s) /\
        (all_peaks m w summits -> all_linked m (summit_cell w summits) w (ws_world s) feats (ws_feats s))
    | Err e => e <> OutOfFuel /\ ~ all_peaks m w summits
    end.
  Proof.
    intros I. pose proof (walk_all fpath near m Hf Hnear Hok Hup Hlow Hpix Hreach w summits feats I) as H.
    destruct (climb_from_saddles fpath near m w summits feats) as [s|e] eqn:E; [|done]. cbn in H.
    destruct (first_walk fpath near m Hf Hnear Hok Hup Hlow Hpix Hreach w summits feats s I E) as [Hw _].
    destruct H as (w1 & A1 & A2 & A3 & A4 & A5 & V & G & F & segs & B1 & B2 & B3).
    destruct V as [V1 V2 V3 V4 V5 V6 V7 V8]. split_and!.
    - rewrite A1 in *. split.
      + apply V1.
      + intros k l Hk Hle. destruct (V2 k l Hk Hle)
          as [(o & su & ds & L1 & L2 & L3 & L4 & L5 & L6 & L7 & L8 & L9) [Hx|Lo]]; [by apply elem_of_nil in Hx|].
        assert (Hwo : walkable m (sa_feat o)).
        { apply Hw. apply elem_of_list_fmap. exists o. split; [done|]. by eapply elem_of_list_lookup_2. }
        assert (Hsu : forall t, summit_cell w summits (ln_summit l) t -> ft_ele (su_feat su) = elev m t).
        { intros t Ht. pose proof Ht as (_ & su0 & H0 & _). rewrite <-(in_level _ _ _ _ I _ t su0 Ht H0).
          destruct (A4 _ _ H0) as (su1 & H1 & H2). destruct (gr_su _ _ G _ _ H1) as (su2 & H3 & H4 & _).
          congruence. }
        assert (Hcase : (ft_hpn (sa_feat o) <> [] /\ ft_ele (sa_feat o) < ft_ele (su_feat su)) \/
          (ft_hpn (sa_feat o) = [] /\ ft_ele (sa_feat o) <= ft_ele (su_feat su))).
        { destruct L6 as [(g & z & t & Hg & Hz & Ht & Hu)|(Hh & t & Ht & Hu)].
          - left. split; [intros Hn; rewrite Hn in Hg; by apply elem_of_nil in Hg|]. rewrite (Hsu t Ht).
            destruct (wk_higher _ _ Hwo g z Hg Hz) as (_ & H1 & H2). apply uphill_le in Hu. lia.
          - right. split; [done|]. rewrite (Hsu t Ht). rewrite (wk_own _ _ Hwo Hh); [by apply uphill_le|].
            by eapply linked_in_l. }
        exists o, su, ds. split; [done|]. split; [done|]. split; [done|]. split; [done|]. split; [done|].
        split; [intros Hn; destruct Hcase as [[_ ?]|[? _]]; done|].
        split; [destruct Hcase as [[_ ?]|[_ ?]]; lia|].
        split; [done|]. split; [done|]. split; [done|]. split; [done|].
        intros Hp. destruct L9 as [L9|[L9|L9]]; [rewrite Hp in L9; by destruct L9|by apply elem_of_nil in L9|done].
      + done.
      + done.
      + intros d x Hx. rewrite <-A3. by apply V5.
    - exists segs. split_and!; try done. intros x i o Hx Ho. destruct (B3 x i o Hx Ho) as (ps & seg & H1 & H2 & _).
      eauto.
    - intros HC i o Hi Ho. apply elem_of_list_lookup in Hi as [x Hx].
      destruct (B3 x i o Hx Ho) as (ps & seg & H1 & [H2 _] & H3 & H4). exists ps. split; [done|].
      intros p Hp. split; [|by apply H4]. rewrite B1. apply elem_of_concat. exists seg. split; [by apply H3|].
      by eapply elem_of_list_lookup_2.
  Qed.

  Lemma leads_ext dom dom' f d : (forall d t, dom d t <-> dom' d t) -> leads m dom f d -> leads m dom' f d.
  Proof.
    intros H [(g & z & t & H1 & H2 & H3 & H4)|(H1 & t & H2 & H3)].
    - left. exists g, z, t. split_and!; try done. by apply H.
    - right. split; [done|]. exists t. split; [by apply H|done].
  Qed.

  Lemma run_walk fp orc : paths_found fp m ->
    exists su sa ru d s, run_no_rebuild fp orc m = Ok (su, sa, ru) /\
      dm_run_sparse fpath fp orc near m = Ok (d, s) /\ ws_world s = mp_world d /\
      mp_saddles d ++ mp_runoffs d ≡ₚ ws_feats s /\
      let dom := fun d t => exists f, su !! d = Some f /\ covers f t in
      let d0 := dm_start su sa ru in
      walk_links m dom (fun _ => []) 0 (mp_world d) (ws_feats s) (mp_linkers d) /\
      walk_output (mp_world d0) (mp_world d) (mp_saddles d0 ++ mp_runoffs d0) (ws_feats s) /\
      all_linked m dom (mp_world d0) (mp_world d) (mp_saddles d0 ++ mp_runoffs d0) (ws_feats s).
  Proof.
    intros Hp. destruct (run_corners fp orc m Hok Hp) as (su & sa & ru0 & _ & Hr).
    set (ru := ru0 ++ _) in Hr. clearbody ru. exists su, sa, ru.
    destruct (start_input m fp orc Hok Hp su sa ru Hr) as (I & Hpk & Hdom).
    unfold dm_run_sparse. rewrite Hr. cbn [rbind]. unfold dm_walk.
    pose proof (walk_claims _ _ _ I) as H.
    destruct (climb_from_saddles _ _ _ _ _ _) as [s|e]; [|by destruct H as [_ []]].
    cbn [rbind]. eexists _, s. split; [done|]. split; [reflexivity|]. split; [done|].
    cbn [mp_world mp_saddles mp_runoffs mp_linkers]. destruct H as ([W1 W2 W3 W4 W5] & HO & HA). split.
    { clear. induction (ws_feats s) as [|i l IH]; [done|]. rewrite !filter_cons.
      destruct (decide (is_runoff (ws_world s) i = false)) as [E1|E1], (decide (is_runoff (ws_world s) i = true)) as [E2|E2];
        try (destruct (is_runoff (ws_world s) i); done).
      - by constructor.
      - rewrite <-Permutation_middle. by constructor. }
    split; [|split].
    - split; try done.
      + intros k l Hk Hle. destruct (W2 k l Hk Hle) as (o & x & ds & L1 & L2 & L3 & L4 & L5 & L6).
        exists o, x, ds. do 4 (split; [done|]). split; [|done]. by eapply leads_ext.
      + intros d x Hx. destruct (W5 d x Hx) as [Ho|]; [|by right]. left.
        unfold domain_saddles in Ho. cbn in Ho. rewrite list_lookup_fmap in Ho.
        destruct (su !! d); cbn in Ho; done.
    - done.
    - intros i o Hi Ho. destruct (HA Hpk i o Hi Ho) as (ps & H1 & H2). exists ps. split; [done|].
      intros p Hp'. destruct (H2 p Hp') as [H3 H4]. split; [done|].
      intros o' g Ho' Hg. destruct (H4 o' g Ho' Hg) as (k & l & z & t & K1 & K2 & K3 & K4 & K5 & K6).
      exists k, l, z, t. split_and!; try done. by apply Hdom.
  Qed.

  (** A second walk over any list of saddles after a first walk. *)
  Lemma walk_twice w summits feats s : walk_input m w summits feats ->
    climb_from_saddles fpath near m w summits feats = Ok s ->
    forall feats', match climb_from_saddles fpath near m (ws_world s) summits feats' with
    | Ok s' => ws_linkers s' = [] /\ w_links (ws_world s') = w_links (ws_world s) /\
        w_summits (ws_world s') = w_summits (ws_world s) /\ same_lists (ws_world s) (ws_world s')
    | Err e => e <> OutOfFuel
    end.
  Proof.
    intros I E feats'.
    destruct (first_walk fpath near m Hf Hnear Hok Hup Hlow Hpix Hreach w summits feats s I E) as [Hw Hd].
    apply second_walk; try done. intros i su Hi Hsu. destruct (Hd i Hi) as (su' & H1 & H2). congruence.
  Qed.

  Lemma run_twice fp orc d s : paths_found fp m -> dm_run_sparse fpath fp orc near m = Ok (d, s) ->
    match dm_walk fpath near m d with
    | Ok (d', _) => mp_linkers d' = [] /\ w_links (mp_world d') = w_links (mp_world d) /\
        w_summits (mp_world d') = w_summits (mp_world d) /\ same_lists (mp_world d) (mp_world d')
    | Err e => e <> OutOfFuel
    end.
  Proof.
    intros Hp. destruct (run_corners fp orc m Hok Hp) as (su & sa & ru0 & _ & Hr).
    set (ru := ru0 ++ _) in Hr. clearbody ru.
    destruct (start_input m fp orc Hok Hp su sa ru Hr) as (I & _ & _).
    unfold dm_run_sparse. rewrite Hr. cbn [rbind]. unfold dm_walk.
    destruct (climb_from_saddles _ _ _ _ _ _) as [s1|e] eqn:E; [|done]. cbn [rbind]. intros [= <- <-].
    cbn [mp_world mp_summits mp_saddles mp_runoffs].
    pose proof (walk_twice _ _ _ s1 I E) as H. cbn [dm_start mp_summits] in *.
    match goal with |- context [climb_from_saddles _ _ _ _ _ ?l] => specialize (H l) end.
    clear E I. destruct (climb_from_saddles _ _ _ _ _ _) as [s2|e2]; cbn [rbind]; done.
  Qed.
End walked.

Lemma runoff_twice w feats s i o o' k : walk_output w (ws_world s) feats (ws_feats s) ->
  i ∈ feats -> w_saddles w !! i = Some o -> ft_kind (sa_feat o) = KRunoff -> ft_edge (sa_feat o) = true ->
  w_saddles (ws_world s) !! i = Some o' ->
  (k ∈ sa_links o' /\ (length (w_links w) <= k)%nat) \/ ft_hpn (sa_feat o) <> [] ->
  (exists l1 l2, ws_feats s = l1 ++ [i; i] ++ l2) /\
  parent_of (ws_world s) i = Some i /\ i ∈ children_of (ws_world s) i /\ sa_over o' = Some true.
Proof.
  intros (segs & H1 & H2 & H3) Hi Ho Hk He Ho' Hor. apply elem_of_list_lookup in Hi as [x Hx].
  destruct (H3 x i o Hx Ho) as (ps & seg & Hseg & Hps & _ & Hc).
  assert (ps = [i]) as ->.
  { destruct Hps as [[-> _]|(_ & Hn & _)]; [done|]. by destruct Hn. }
  destruct (Hc He) as [(-> & (o2 & Ho2 & Hov) & Hp)|(-> & _ & Hnil & o2 & Ho2 & Hlt)].
  2:{ exfalso. destruct Hor as [[Hin Hle]|Hn]; [|done]. assert (o2 = o') as -> by congruence. specialize (Hlt k Hin). lia. }
  destruct (Hp i) as [Hp1 Hp2]; [by left|]. split_and!; [|done|done|congruence].
  exists (concat (take x segs)), (concat (drop (S x) segs)). rewrite H1.
  rewrite <-(take_drop_middle segs x _ Hseg) at 1. by rewrite concat_app.
Qed.
