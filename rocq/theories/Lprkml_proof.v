(** What a local prominent region shows on a map. *)
From Verif Require Import Base_model Graph_model Divide_model Divide_spec Divide_proof Walk_model Kml_model Kml_spec Kml_proof Lprkml_model Lprkml_spec.

Lemma leads_joined w a p b : leads w a p b -> forall k, k ∈ p -> exists x i, joins w k x i /\ live_saddle w i false.
Proof.
  induction 1 as [|p b k s j c Hl IH Hh]; intros x Hx; [by apply elem_of_nil in Hx|].
  apply elem_of_app in Hx as [Hx|Hx]; [by apply IH|]. destruct Hh as (_ & Hj & Hs & _ & _ & Hj' & _).
  apply elem_of_cons in Hx as [->|Hx]; [by exists b, s|]. apply elem_of_list_singleton in Hx as ->. by exists c, s.
Qed.
Lemma ends_joined w a q s : ends_at w (fun b k s => border_at w b k s \/ divide_at w b k s) a q s ->
  (forall k, k ∈ q -> exists x i, joins w k x i /\ exists e, live_saddle w i e) /\
  (exists k s', k ∈ q /\ joins w k a s') /\ (exists k x, k ∈ q /\ joins w k x s).
Proof.
  intros (p & b & k & -> & Hl & Hk & Hj & Hwhy).
  assert (exists e, live_saddle w s e) as Hs by (destruct Hwhy as [[H|[H _]]|[H _]]; eauto).
  split; [|split].
  - intros x Hx. apply elem_of_app in Hx as [Hx|Hx].
    + destruct (leads_joined w a p b Hl x Hx) as (y & i & H & Hi). exists y, i. eauto.
    + apply elem_of_list_singleton in Hx as ->. exists b, s. eauto.
  - clear Hwhy Hs. revert k s Hk Hj. induction Hl as [|p b k s j c Hl IH Hh]; intros k0 s0 Hk0 Hj0.
    + exists k0, s0. split; [by left|done].
    + destruct Hh as (Hat & Hjk & _). destruct (IH k s Hat Hjk) as (x & s' & Hx & Hxs). exists x, s'. split; [|done].
      rewrite <-app_assoc. apply elem_of_app in Hx as [Hx|Hx]; apply elem_of_app; [by left|right].
      apply elem_of_list_singleton in Hx as ->. by left.
  - exists k, b. split; [apply elem_of_app; right; by left|done].
Qed.

Section region.
  Variable w : world.
  Variable pic : pictures.

  Lemma elements_fold q : (forall k, k ∈ q -> exists l, w_links w !! k = Some l) -> forall acc,
    exists acc', foldM (fun k (acc : list kfeature * list kfeature * list kfeature) =>
        match w_links w !! k with
        | None => Err AttributeError
        | Some l => Ok (acc.1.1 ++ [see_saddle w pic (ln_saddle l)], acc.1.2 ++ [see_summit pic (ln_summit l)], acc.2 ++ [see_link pic k])
        end) q acc = Ok acc' /\
      (forall x, x ∈ acc'.1.1 <-> x ∈ acc.1.1 \/ exists k l, k ∈ q /\ w_links w !! k = Some l /\ x = see_saddle w pic (ln_saddle l)) /\
      (forall x, x ∈ acc'.1.2 <-> x ∈ acc.1.2 \/ exists k l, k ∈ q /\ w_links w !! k = Some l /\ x = see_summit pic (ln_summit l)) /\
      (forall x, x ∈ acc'.2 <-> x ∈ acc.2 \/ exists k l, k ∈ q /\ w_links w !! k = Some l /\ x = see_link pic k).
  Proof.
    induction q as [|k q IH]; intros Hq acc.
    - exists acc. split; [done|]. split; [|split]; intros x; (split; [by left|intros [H|(k & _ & H & _)]; [done|by apply elem_of_nil in H]]).
    - destruct (Hq k (elem_of_list_here _ _)) as (l & El). cbn [foldM]. rewrite El. cbn [rbind].
      destruct (IH (fun k' H => Hq k' (elem_of_list_further _ _ _ H))
        (acc.1.1 ++ [see_saddle w pic (ln_saddle l)], acc.1.2 ++ [see_summit pic (ln_summit l)], acc.2 ++ [see_link pic k]))
        as (acc' & E & H1 & H2 & H3). exists acc'. split; [exact E|]. cbn [fst snd] in H1, H2, H3.
      split; [|split]; intros x; [rewrite H1|rewrite H2|rewrite H3]; rewrite elem_of_app, elem_of_list_singleton; (split;
        [intros [[H|H]|(k' & l' & Hk & H)];
           [by left|right; exists k, l; split; [by left|done]|right; exists k', l'; split; [by right|done]]
        |intros [H|(k' & l' & Hk & E' & H)]; [by left; left|]; apply elem_of_cons in Hk as [->|Hk];
           [left; right; congruence|right; by exists k', l']]).
  Qed.

  Definition element (x : kfeature) (k a i : nat) : Prop := x = see_summit pic a \/ x = see_saddle w pic i \/ x = see_link pic k.
  Lemma elements_path q : (forall k, k ∈ q -> exists a i, joins w k a i) ->
    exists es, path_elements w pic q = Ok es /\ forall x, x ∈ es <-> exists k a i, k ∈ q /\ joins w k a i /\ element x k a i.
  Proof.
    intros Hq. destruct (elements_fold q) with (acc := ([], [], []) : list kfeature * list kfeature * list kfeature) as (acc & E & H1 & H2 & H3).
    { intros k Hk. destruct (Hq k Hk) as (a & i & l & El & _). by exists l. }
    exists (acc.1.2 ++ acc.1.1 ++ acc.2). unfold path_elements. rewrite E. split; [done|]. intros x.
    rewrite !elem_of_app, H1, H2, H3. cbn [fst snd]. split.
    - intros [[H|(k & l & Hk & El & ->)]|[[H|(k & l & Hk & El & ->)]|[H|(k & l & Hk & El & ->)]]]; try (by apply elem_of_nil in H);
        (destruct (Hq k Hk) as (a & i & Hj); exists k, a, i; split; [done|split; [done|]];
         destruct Hj as (l' & El' & <- & <- & _); rewrite El in El'; injection El' as <-); [by left|by right; left|by right; right].
    - intros (k & a & i & Hk & (l & El & <- & <- & _) & [-> | [-> | ->]]); [left|right; left|right; right]; right; by exists k, l.
  Qed.
  Lemma elements_region paths : (forall q s k, (q, s) ∈ paths -> k ∈ q -> exists a i, joins w k a i) -> forall es0,
    exists es, foldM (fun (e : list nat * nat) elements => let* es := path_elements w pic e.1 in Ok (elements ++ es)) paths es0 = Ok es /\
      forall x, x ∈ es <-> x ∈ es0 \/ exists k a i, on_path w paths k a i /\ element x k a i.
  Proof.
    induction paths as [|[q s] paths IH]; intros Hp es0.
    - exists es0. split; [done|]. intros x. split; [by left|]. intros [H|(k & a & i & (q & s & H & _) & _)]; [done|by apply elem_of_nil in H].
    - destruct (elements_path q) as (es & E & He).
      { intros k Hk. apply (Hp q s k); [by left|done]. }
      destruct (IH (fun q' s' k H => Hp q' s' k (elem_of_list_further _ _ _ H)) (es0 ++ es)) as (es' & E' & He').
      exists es'. cbn [foldM fst]. rewrite E. cbn [rbind]. split; [exact E'|]. intros x. rewrite He', elem_of_app, He. split.
      + intros [[H|(k & a & i & Hk & Hj & Hx)]|(k & a & i & (q' & s' & H & Hk & Hj) & Hx)]; [by left|(right; exists k, a, i) ..].
        * split; [|done]. exists q, s. split; [by left|done].
        * split; [|done]. exists q', s'. split; [by right|done].
      + intros [H|(k & a & i & (q' & s' & H & Hk & Hj) & Hx)]; [by left; left|]. apply elem_of_cons in H as [[= -> ->]|H].
        * left. right. by exists k, a, i.
        * right. exists k, a, i. split; [|done]. by exists q', s'.
  Qed.

  Lemma shows_firsts {A} (P : A -> Prop) text style l ps : firsts kind_and_place l ps ->
    (forall p, p ∈ l <-> exists x, P x /\ p = Pm style (text x).1 (text x).2) -> shows P text style ps.
  Proof.
    intros Hf Hl. pose proof (firsts_sub _ _ _ Hf) as Hs. split; [|split].
    - intros p Hp. by apply Hl, Hs.
    - intros x Hx. assert (kind_and_place (Pm style (text x).1 (text x).2) ∈ map kind_and_place ps) as Hin.
      { apply (firsts_elem _ _ _ Hf). apply elem_of_list_fmap. eexists. split; [done|]. apply Hl. by exists x. }
      apply elem_of_list_fmap in Hin as (p & E & Hp). exists p. unfold kind_and_place in E. cbn in E.
      injection E as E1 E2. split; [done|]. by split.
    - pose proof (firsts_nodup _ _ _ Hf) as Hn.
      assert (forall p, p ∈ ps -> pm_style p = style) as Hst.
      { intros p Hp. apply Hs, Hl in Hp as (x & _ & ->). done. }
      assert (map kind_and_place ps = map (fun t => (style, t)) (map pm_wkt ps)) as E.
      { clear -Hst. induction ps as [|p ps IH]; [done|]. cbn [map]. rewrite IH by (intros; apply Hst; by right).
        unfold kind_and_place at 1. rewrite (Hst p) by by left. done. }
      rewrite E in Hn. by apply NoDup_fmap_1 in Hn.
  Qed.
End region.

Section run.
  Variables (m : datamap) (w : world) (pic : pictures).
  Hypothesis Hown : own_links w.
  Variables (master : nat) (t0 : tree).
  Local Notation r := (local_prominent_region m w master t0).

  Lemma region_links q s k : (q, s) ∈ lp_paths r -> k ∈ q -> exists a i, joins w k a i /\ exists e, live_saddle w i e.
  Proof.
    intros Hq Hk. destruct (so_paths _ _ _ _ (region_sound m w Hown master t0) q s Hq) as [He _].
    exact (proj1 (ends_joined w master q s He) k Hk).
  Qed.
  Lemma live_on_path k a i : on_path w (lp_paths r) k a i -> exists sa, w_saddles w !! i = Some sa /\ disqualified sa = false.
  Proof.
    intros (q & s & Hq & Hk & Hj). destruct (region_links q s k Hq Hk) as (a' & i' & Hj' & e & sa & E & Hd & _).
    destruct Hj as (l & El & _ & <- & _), Hj' as (l' & El' & _ & <- & _). rewrite El in El'. injection El' as <-. by exists sa.
  Qed.
  Lemma region_shown : exists es kw, region_elements w pic r = Ok es /\ kml_extend es kml_new = Ok kw /\
    shows (fun a => exists k i, on_path w (lp_paths r) k a i) (pic_summit pic) "#summit" (k_summits kw) /\
    shows (fun i => Walk_model.is_runoff w i = false /\ exists k a, on_path w (lp_paths r) k a i) (pic_saddle pic) "#saddle" (k_saddles kw) /\
    shows (fun i => Walk_model.is_runoff w i = true /\ exists k a, on_path w (lp_paths r) k a i) (pic_saddle pic) "#runoff" (k_runoffs kw) /\
    shows (fun k => exists a i, on_path w (lp_paths r) k a i) (fun k => (pic_link pic k, ""%string)) "" (k_linkers kw) /\
    k_spots kw = [] /\ k_domains kw = [].
  Proof.
    destruct (elements_region w pic (lp_paths r)) with (es0 := @nil kfeature) as (es & E & He).
    { intros q s k Hq Hk. destruct (region_links q s k Hq Hk) as (a & i & Hj & _). by exists a, i. }
    assert (forall x, x ∈ es <-> exists k a i, on_path w (lp_paths r) k a i /\ element w pic x k a i) as Hes.
    { intros x. rewrite He. split; [intros [H|H]; [by apply elem_of_nil in H|done]|by right]. }
    assert (forall x, x ∈ es -> leaves x = [x] /\ x <> KOther) as Hleaf.
    { intros x Hx. apply Hes in Hx as (k & a & i & Hp & [-> | [-> | ->]]); [done| |done].
      destruct (live_on_path k a i Hp) as (sa & Ei & _). unfold see_saddle. rewrite Ei. done. }
    assert (all_leaves es = es) as El.
    { unfold all_leaves. clear -Hleaf. induction es as [|x es IH]; [done|]. cbn [map concat].
      rewrite (proj1 (Hleaf x (elem_of_list_here _ _))), IH; [done|]. intros y Hy. apply Hleaf. by right. }
    assert (KOther ∉ all_leaves es) as Hno.
    { rewrite El. intros H. by apply Hleaf in H as [_ H]. }
    destruct (proj2 (kml_spec es) Hno) as (kw & Ek & Hi). rewrite El in Hi. destruct Hi as [_ _ Sa Su Ru Sp Li Do].
    exists es, kw. split; [exact E|]. split; [exact Ek|].
    assert (forall k a i, on_path w (lp_paths r) k a i ->
      see_saddle w pic i = KLoc (if Walk_model.is_runoff w i then KRunoff else KSaddle false) (pic_saddle pic i).1 (pic_saddle pic i).2) as Hsee.
    { intros k a i Hp. destruct (live_on_path k a i Hp) as (sa & Ei & Ed). unfold see_saddle. by rewrite Ei, Ed. }
    split; [|split; [|split; [|split; [|split]]]].
    - apply (shows_firsts _ _ _ _ _ Su). intros p. rewrite elem_of_list_omap. split.
      + intros (x & Hx & Ep). apply Hes in Hx as (k & a & i & Hp & [-> | [-> | ->]]); [|rewrite (Hsee k a i Hp) in Ep; by destruct (Walk_model.is_runoff w i)|done].
        cbn in Ep. injection Ep as <-. exists a. split; [by exists k, i|done].
      + intros (a & (k & i & Hp) & ->). exists (see_summit pic a). split; [|done]. apply Hes. exists k, a, i. split; [done|by left].
    - apply (shows_firsts _ _ _ _ _ Sa). intros p. rewrite elem_of_list_omap. split.
      + intros (x & Hx & Ep). apply Hes in Hx as (k & a & i & Hp & [-> | [-> | ->]]); [done| |done]. rewrite (Hsee k a i Hp) in Ep.
        destruct (Walk_model.is_runoff w i) eqn:Er; [done|]. cbn in Ep. injection Ep as <-. exists i. split; [split; [done|by exists k, a]|done].
      + intros (i & (Er & k & a & Hp) & ->). exists (see_saddle w pic i). split; [apply Hes; exists k, a, i; split; [done|by right; left]|].
        by rewrite (Hsee k a i Hp), Er.
    - apply (shows_firsts _ _ _ _ _ Ru). intros p. rewrite elem_of_list_omap. split.
      + intros (x & Hx & Ep). apply Hes in Hx as (k & a & i & Hp & [-> | [-> | ->]]); [done| |done]. rewrite (Hsee k a i Hp) in Ep.
        destruct (Walk_model.is_runoff w i) eqn:Er; [|done]. cbn in Ep. injection Ep as <-. exists i. split; [split; [done|by exists k, a]|done].
      + intros (i & (Er & k & a & Hp) & ->). exists (see_saddle w pic i). split; [apply Hes; exists k, a, i; split; [done|by right; left]|].
        by rewrite (Hsee k a i Hp), Er.
    - apply (shows_firsts _ _ _ _ _ Li). intros p. rewrite elem_of_list_omap. split.
      + intros (x & Hx & Ep). apply Hes in Hx as (k & a & i & Hp & [-> | [-> | ->]]); [done|rewrite (Hsee k a i Hp) in Ep; by destruct (Walk_model.is_runoff w i)|].
        cbn in Ep. injection Ep as <-. exists k. split; [by exists a, i|done].
      + intros (k & (a & i & Hp) & ->). exists (see_link pic k). split; [|done]. apply Hes. exists k, a, i. split; [done|by right; right].
    - destruct (k_spots kw) as [|p l] eqn:Ep; [done|]. exfalso.
      assert (p ∈ omap spots_of es) as Hin by (apply (firsts_sub _ _ _ Sp); by left).
      apply elem_of_list_omap in Hin as (x & Hx & Hs). apply Hes in Hx as (k & a & i & Hp & [-> | [-> | ->]]); [done| |done].
      rewrite (Hsee k a i Hp) in Hs. by destruct (Walk_model.is_runoff w i).
    - rewrite Do. destruct (omap domains_of es) as [|p l] eqn:Ep; [done|]. exfalso.
      assert (p ∈ omap domains_of es) as Hin by (rewrite Ep; by left).
      apply elem_of_list_omap in Hin as (x & Hx & Hs). apply Hes in Hx as (k & a & i & Hp & [-> | [-> | ->]]); [done| |done].
      rewrite (Hsee k a i Hp) in Hs. by destruct (Walk_model.is_runoff w i).
  Qed.

  Lemma region_ends q s : (q, s) ∈ lp_paths r ->
    (exists k i, on_path w (lp_paths r) k master i) /\ exists k a, on_path w (lp_paths r) k a s.
  Proof.
    intros Hq. destruct (so_paths _ _ _ _ (region_sound m w Hown master t0) q s Hq) as [He _].
    destruct (ends_joined w master q s He) as (_ & (k & i & Hk & Hj) & (k' & a & Hk' & Hj')). split.
    - exists k, i. by exists q, s.
    - exists k', a. by exists q, s.
  Qed.
End run.
