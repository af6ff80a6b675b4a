(** Proofs about the map export. *)
From Verif Require Import Kml_model Kml_spec.

Lemma foldM_app {A S} (f : A -> S -> res S) l1 l2 s : foldM f (l1 ++ l2) s = rbind (foldM f l1 s) (foldM f l2).
Proof. revert s. induction l1 as [|a l1 IH]; intros s; cbn; [done|]. destruct (f a s); cbn; [apply IH|done]. Qed.

(** An induction principle for features. *)
Section ind.
  Variable P : kfeature -> Prop.
  Hypothesis H1 : forall c g n, P (KLoc c g n).
  Hypothesis H2 : forall g, P (KLinker g).
  Hypothesis H3 : forall g n, P (KDomain g n).
  Hypothesis H4 : P KOther.
  Hypothesis H5 : forall l, Forall P l -> P (KContainer l).
  Hypothesis H6 : forall a b c d e, Forall P a -> Forall P b -> Forall P c -> Forall P d -> Forall P e -> P (KMap a b c d e).
  Fixpoint kfeature_all (f : kfeature) : P f :=
    let all := fix all (l : list kfeature) : Forall P l :=
      match l with
      | [] => Forall_nil_2 P
      | x :: l => Forall_cons_2 P x l (kfeature_all x) (all l)
      end in
    match f with
    | KLoc c g n => H1 c g n
    | KLinker g => H2 g
    | KDomain g n => H3 g n
    | KOther => H4
    | KContainer l => H5 l (all l)
    | KMap a b c d e => H6 a b c d e (all a) (all b) (all c) (all d) (all e)
    end.
End ind.

(** ** Flattening *)

Definition leaf_append (f : kfeature) (w : kmlwriter) : res kmlwriter :=
  match f with
  | KLoc c wkt label => Ok (append_loc w (type_name c) wkt label)
  | KLinker wkt => Ok (append_linker w wkt)
  | KDomain wkt label => Ok (append_domain w wkt label)
  | _ => Err OtherError
  end.
Lemma foldM_concat {A} (g : A -> list kfeature) (h : A -> kmlwriter -> res kmlwriter) l :
  Forall (fun f => forall w, h f w = foldM leaf_append (g f) w) l ->
  forall w, foldM h l w = foldM leaf_append (concat (map g l)) w.
Proof.
  induction 1 as [|x l Hx Hl IH]; intros w; cbn; [done|]. rewrite foldM_app, <-Hx.
  destruct (h x w); cbn; [apply IH|done].
Qed.
Lemma append_leaves : forall f w, kml_append f w = foldM leaf_append (leaves f) w.
Proof.
  assert (forall l w, (fix extend (fs : list kfeature) (w : kmlwriter) : res kmlwriter :=
    match fs with [] => Ok w | f :: fs => rbind (kml_append f w) (extend fs) end) l w = foldM kml_append l w) as Hx.
  { induction l as [|x l IH]; intros w; cbn; [done|]. destruct (kml_append x w); cbn; [apply IH|done]. }
  apply (kfeature_all (fun f => forall w, kml_append f w = foldM leaf_append (leaves f) w)); try done.
  - intros l Hl w. cbn [leaves]. rewrite <-(foldM_concat leaves kml_append) by done. rewrite <-Hx. done.
  - intros a b c d e Ha Hb Hc Hd He w. cbn [leaves]. rewrite !foldM_app.
    rewrite <-(foldM_concat leaves kml_append a) by done. cbn [kml_append]. rewrite Hx.
    destruct (foldM kml_append a w) as [w1|]; cbn [rbind]; [|done]. rewrite Hx, foldM_app, <-(foldM_concat leaves kml_append b) by done.
    destruct (foldM kml_append b w1) as [w2|]; cbn [rbind]; [|done]. rewrite Hx, foldM_app, <-(foldM_concat leaves kml_append c) by done.
    destruct (foldM kml_append c w2) as [w3|]; cbn [rbind]; [|done]. rewrite Hx, foldM_app, <-(foldM_concat leaves kml_append d) by done.
    destruct (foldM kml_append d w3) as [w4|]; cbn [rbind]; [|done]. rewrite Hx, <-(foldM_concat leaves kml_append e) by done. done.
Qed.
Lemma extend_leaves fs w : kml_extend fs w = foldM leaf_append (all_leaves fs) w.
Proof.
  unfold kml_extend, all_leaves. apply foldM_concat. apply Forall_forall. intros f _. apply append_leaves.
Qed.
Lemma leaves_leaf f x : x ∈ leaves f -> match x with KContainer _ | KMap _ _ _ _ _ => False | _ => True end.
Proof.
  assert (forall l : list kfeature, Forall (fun f => forall x, x ∈ leaves f -> match x with KContainer _ | KMap _ _ _ _ _ => False | _ => True end) l ->
    forall x, x ∈ concat (map leaves l) -> match x with KContainer _ | KMap _ _ _ _ _ => False | _ => True end) as Hc.
  { induction 1 as [|y l Hy Hl IH]; intros z; cbn; [by rewrite elem_of_nil|]. rewrite elem_of_app. intros [?|?]; [by apply Hy|by apply IH]. }
  revert f x. apply (kfeature_all (fun f => forall x, x ∈ leaves f -> match x with KContainer _ | KMap _ _ _ _ _ => False | _ => True end)).
  1-4: (intros; match goal with H : _ ∈ _ |- _ => cbn in H; apply elem_of_list_singleton in H; by subst end).
  - intros l Hl x. cbn. by apply Hc.
  - intros a b c d e Ha Hb Hc' Hd He x. cbn. rewrite !elem_of_app. intros [H|[H|[H|[H|H]]]];
      [by apply (Hc a)|by apply (Hc b)|by apply (Hc c)|by apply (Hc d)|by apply (Hc e)].
Qed.

(** ** Keys *)

Lemma append_inj_r a b c : (a ++ b = a ++ c)%string -> b = c.
Proof. induction a as [|x a IH]; cbn; [done|]. intros [= E]. auto. Qed.
Lemma type_key_inj c d g h : (type_name c ++ g = type_name d ++ h)%string -> type_name c = type_name d /\ g = h.
Proof. destruct c as [| |[|]|], d as [| |[|]|]; cbn; intros [= E]; done. Qed.

(** ** The folders *)

Lemma firsts_elem {A B} (key : A -> B) l k : firsts key l k -> forall b, b ∈ map key l <-> b ∈ map key k.
Proof.
  induction 1 as [|l k x Hf IH Hx|l k x Hf IH Hx]; intros b; [done| |]; rewrite !map_app, !elem_of_app; [by rewrite IH|].
  rewrite IH. cbn. rewrite elem_of_list_singleton. split; [|by left]. intros [?| ->]; [done|by apply IH].
Qed.
Lemma firsts_nodup {A B} (key : A -> B) l k : firsts key l k -> NoDup (map key k).
Proof.
  induction 1 as [|l k x Hf IH Hx|l k x Hf IH Hx]; [constructor| |done]. rewrite map_app. apply NoDup_app. split; [done|]. split; [|apply NoDup_singleton].
  intros b Hb. cbn. rewrite elem_of_list_singleton. intros ->. apply Hx. by apply (firsts_elem key l k).
Qed.

Definition classes : list kclass := [KSummit; KRunoff; KSaddle true; KSaddle false; KSpot].
(** The invariant after the leaves [l]. *)
Record inv (l : list kfeature) (w : kmlwriter) : Prop := {
  i_keys : forall c g, (type_name c ++ g)%string ∈ k_spots_wkt w <-> exists c' n, KLoc c' g n ∈ l /\ type_name c' = type_name c;
  i_lkeys : forall g, g ∈ k_linkers_wkt w <-> KLinker g ∈ l;
  i_saddles : firsts kind_and_place (omap saddles_of l) (k_saddles w);
  i_summits : firsts kind_and_place (omap summits_of l) (k_summits w);
  i_runoffs : firsts kind_and_place (omap runoffs_of l) (k_runoffs w);
  i_spots : firsts kind_and_place (omap spots_of l) (k_spots w);
  i_linkers : firsts kind_and_place (omap linkers_of l) (k_linkers w);
  i_domains : k_domains w = omap domains_of l }.

Lemma omap_snoc {A B} (f : A -> option B) l x : omap f (l ++ [x]) = omap f l ++ match f x with Some y => [y] | None => [] end.
Proof. rewrite omap_app. by cbn; destruct (f x). Qed.
Lemma kind_in (f : kfeature -> option placemark) l p : kind_and_place p ∈ map kind_and_place (omap f l) <->
  exists x q, x ∈ l /\ f x = Some q /\ kind_and_place q = kind_and_place p.
Proof.
  rewrite elem_of_list_fmap. split.
  - intros (q & E & Hq). apply elem_of_list_omap in Hq as (x & Hx & Ex). by exists x, q.
  - intros (x & q & Hx & Ex & E). exists q. split; [done|]. apply elem_of_list_omap. eauto.
Qed.

Lemma inv_new : inv [] kml_new.
Proof.
  split; cbn; try constructor; try done; try set_solver.
  all: set_solver.
Qed.
Lemma inv_step l w x w' : inv l w -> leaf_append x w = Ok w' -> inv (l ++ [x]) w'.
Proof.
  intros [K L Sa Su Ru Sp Li Do] E. destruct x as [c g n|g|g n| | |]; cbn in E; try done; injection E as <-.
  - (* a location *)
    assert (forall c' g', (exists d m, KLoc d g' m ∈ l ++ [KLoc c g n] /\ type_name d = type_name c') <->
      (exists d m, KLoc d g' m ∈ l /\ type_name d = type_name c') \/ (g' = g /\ type_name c' = type_name c)) as Hk.
    { intros c' g'. split.
      - intros (d & m & Hin & Ed). apply elem_of_app in Hin as [Hin|Hin]; [left; eauto|].
        apply elem_of_list_singleton in Hin as [= -> -> ->]. by right.
      - intros [(d & m & Hin & Ed)|[-> Ec]]; [exists d, m; split; [apply elem_of_app; by left|done]|].
        exists c, n. split; [apply elem_of_app; right; by apply elem_of_list_singleton|done]. }
    unfold append_loc. destruct (decide _) as [Hin|Hout].
    + apply K in Hin as (c' & n' & Hin & Ec).
      split; rewrite ?omap_snoc.
      * intros d h. rewrite K, Hk. split; [by left|]. intros [?|[-> Ed]]; [done|]. exists c', n'. split; [done|congruence].
      * intros h. rewrite L. rewrite elem_of_app, elem_of_list_singleton. split; [by left|]. by intros [?|?].
      * destruct c as [| |[|]|]; cbn; rewrite ?app_nil_r; try done; (apply firsts_old; [done|]; apply kind_in;
          destruct c' as [| |[|]|]; try discriminate; eexists _, _; split; [exact Hin|]; by split).
      * destruct c as [| |[|]|]; cbn; rewrite ?app_nil_r; try done; (apply firsts_old; [done|]; apply kind_in;
          destruct c' as [| |[|]|]; try discriminate; eexists _, _; split; [exact Hin|]; by split).
      * destruct c as [| |[|]|]; cbn; rewrite ?app_nil_r; try done; (apply firsts_old; [done|]; apply kind_in;
          destruct c' as [| |[|]|]; try discriminate; eexists _, _; split; [exact Hin|]; by split).
      * destruct c as [| |[|]|]; cbn; rewrite ?app_nil_r; try done; (apply firsts_old; [done|]; apply kind_in;
          destruct c' as [| |[|]|]; try discriminate; eexists _, _; split; [exact Hin|]; by split).
      * cbn. by rewrite app_nil_r.
      * cbn. by rewrite app_nil_r.
    + assert (forall m, KLoc c g m ∉ l) as Hnew by (intros m Hin; apply Hout, K; eauto).
      destruct w as [seen lseen li sa su ru sp do]. cbn in *.
      assert (forall d h, (type_name d ++ h)%string ∈ {[(type_name c ++ g)%string]} ∪ seen <->
        (exists d' m, KLoc d' h m ∈ l ++ [KLoc c g n] /\ type_name d' = type_name d)) as HK.
      { intros d h. rewrite Hk, elem_of_union, elem_of_singleton, K. split.
        - intros [E|?]; [|by left]. apply type_key_inj in E as [E1 ->]. by right.
        - intros [?|[-> ->]]; [by right|by left]. }
      assert (forall h, h ∈ lseen <-> KLinker h ∈ l ++ [KLoc c g n]) as HL.
      { intros h. rewrite L, elem_of_app, elem_of_list_singleton. split; [by left|]. by intros [?|?]. }
      assert (forall (f : kfeature -> option placemark) k p, firsts kind_and_place (omap f l) k -> f (KLoc c g n) = Some p ->
        (forall x q, f x = Some q -> kind_and_place q = kind_and_place p -> exists m, x = KLoc c g m) ->
        firsts kind_and_place (omap f (l ++ [KLoc c g n])) (k ++ [p])) as Hf.
      { intros f k p Hk' Ef Hinj. rewrite omap_snoc, Ef. apply firsts_new; [done|]. rewrite kind_in.
        intros (x & q & Hx & Eq & Ekp). destruct (Hinj x q Eq Ekp) as [m ->]. by apply (Hnew m). }
      assert (forall (f : kfeature -> option placemark) k, firsts kind_and_place (omap f l) k -> f (KLoc c g n) = None ->
        firsts kind_and_place (omap f (l ++ [KLoc c g n])) k) as Hs.
      { intros f k Hk' Ef. by rewrite omap_snoc, Ef, app_nil_r. }
      destruct c as [| |[|]|]; cbn [type_name] in *; repeat (rewrite decide_False by discriminate); rewrite decide_True by done;
      (split; cbn [k_spots_wkt k_linkers_wkt k_linkers k_saddles k_summits k_runoffs k_spots k_domains]; try done; try (by apply Hs);
        try (by rewrite omap_snoc; cbn; rewrite app_nil_r);
        (apply Hf; [done|done|]; intros [[| |[|]|] h m|h|h m| | |] q Eq Ekp; cbn in Eq; try discriminate; injection Eq as <-;
           injection Ekp; intros; subst; try discriminate; by eexists)).
  - (* a link *)
    assert (forall c' g', (exists d m, KLoc d g' m ∈ l ++ [KLinker g] /\ type_name d = type_name c') <->
      (exists d m, KLoc d g' m ∈ l /\ type_name d = type_name c')) as Hk.
    { intros c' g'. split; intros (d & m & Hin & Ed); exists d, m; (split; [|done]).
      - apply elem_of_app in Hin as [Hin|Hin]; [done|]. by apply elem_of_list_singleton in Hin.
      - apply elem_of_app. by left. }
    unfold append_linker. destruct (decide _) as [Hin|Hout].
    + apply L in Hin. split; rewrite ?omap_snoc; cbn; rewrite ?app_nil_r; try done.
      * intros c' h. by rewrite K, Hk.
      * intros h. rewrite L, elem_of_app, elem_of_list_singleton. split; [by left|]. intros [?|[= ->]]; done.
      * apply firsts_old; [done|]. apply kind_in. by eexists _, _.
    + destruct w as [seen lseen li sa su ru sp do]. cbn in *. split; cbn; rewrite ?omap_snoc; cbn; rewrite ?app_nil_r; try done.
      * intros c' h. by rewrite K, Hk.
      * intros h. rewrite elem_of_union, elem_of_singleton, L, elem_of_app, elem_of_list_singleton. split.
        -- intros [->|?]; [by right|by left].
        -- intros [?|[= ->]]; [by right|by left].
      * apply firsts_new; [done|]. rewrite kind_in. intros (x & q & Hx & Eq & Ekp). apply Hout, L.
        destruct x as [|h| | | |]; try discriminate. cbn in Eq. injection Eq as <-. injection Ekp as ->. done.
  - (* a summit domain *)
    destruct w as [seen lseen li sa su ru sp do]. cbn in *. split; cbn; rewrite ?omap_snoc; cbn; rewrite ?app_nil_r; try done.
    + intros c' h. rewrite K. split; intros (d & m & Hin & Ed); exists d, m; (split; [|done]).
      * apply elem_of_app. by left.
      * apply elem_of_app in Hin as [Hin|Hin]; [done|]. by apply elem_of_list_singleton in Hin.
    + intros h. rewrite L, elem_of_app, elem_of_list_singleton. split; [by left|]. by intros [?|?].
    + by rewrite Do.
Qed.
Lemma inv_run r : forall l w w', inv l w -> foldM leaf_append r w = Ok w' -> inv (l ++ r) w'.
Proof.
  induction r as [|x r IH]; intros l w w' Hi E; cbn in E.
  - injection E as <-. by rewrite app_nil_r.
  - destruct (leaf_append x w) as [w1|] eqn:E1; cbn in E; [|done]. 
    replace (l ++ x :: r) with ((l ++ [x]) ++ r) by (by rewrite <-app_assoc). eapply IH; [|done]. by eapply inv_step.
Qed.
Lemma leaf_fail r : (forall x, x ∈ r -> match x with KContainer _ | KMap _ _ _ _ _ => False | _ => True end) ->
  forall w, (KOther ∈ r /\ foldM leaf_append r w = Err OtherError) \/ (KOther ∉ r /\ exists w', foldM leaf_append r w = Ok w').
Proof.
  induction r as [|x r IH]; intros Hl w; cbn.
  - right. split; [apply not_elem_of_nil|by eexists].
  - rewrite !elem_of_cons. assert (forall y, y ∈ r -> match y with KContainer _ | KMap _ _ _ _ _ => False | _ => True end) as Hr
      by (intros; apply Hl; by right).
    destruct x as [c g n|g|g n| | |]; cbn [leaf_append rbind];
      [| | |exfalso; exact (Hl _ (elem_of_list_here _ _))|exfalso; exact (Hl _ (elem_of_list_here _ _))|by left; split; [left|]];
      (match goal with |- context [foldM leaf_append r ?w1] => destruct (IH Hr w1) as [[H1 H2]|[H1 H2]] end;
      [left; split; [by right|done]|right; split; [by intros [?|?]|done]]).
Qed.

Lemma kml_spec fs :
  (KOther ∈ all_leaves fs -> kml_extend fs kml_new = Err OtherError) /\
  (KOther ∉ all_leaves fs -> exists w, kml_extend fs kml_new = Ok w /\ inv (all_leaves fs) w).
Proof.
  rewrite extend_leaves. assert (forall x, x ∈ all_leaves fs -> match x with KContainer _ | KMap _ _ _ _ _ => False | _ => True end) as Hl.
  { intros x Hx. unfold all_leaves in Hx. apply elem_of_list_In, in_concat in Hx as (l & Hin & Hx).
    apply in_map_iff in Hin as (f & <- & _). apply elem_of_list_In in Hx. by eapply leaves_leaf. }
  destruct (leaf_fail _ Hl kml_new) as [[H1 H2]|[H1 [w H2]]]; (split; [intros H|intros H]); try done.
  exists w. split; [done|]. apply (inv_run _ [] kml_new); [apply inv_new|done].
Qed.

(** *** The document *)
Lemma firsts_sub {A B} (key : A -> B) l k : firsts key l k -> forall x, x ∈ k -> x ∈ l.
Proof.
  induction 1 as [|l k x H IH Hn|l k x H IH Ho]; intros z Hz; [done| |].
  - apply elem_of_app in Hz as [Hz|Hz]; apply elem_of_app; [left; by apply IH|by right].
  - apply elem_of_app. left. by apply IH.
Qed.
Lemma firsts_all {A B} (key : A -> B) l k : firsts key l k -> forall x, x ∈ l -> exists y, y ∈ k /\ key y = key x.
Proof.
  intros H x Hx. assert (key x ∈ map key k) as Hin.
  { apply (firsts_elem _ _ _ H). apply elem_of_list_fmap. by exists x. }
  apply elem_of_list_fmap in Hin as (q & E & Hq). by exists q.
Qed.

Lemma document_spec fs w : KOther ∉ all_leaves fs -> kml_extend fs kml_new = Ok w ->
  let l := all_leaves fs in
  (forall name k, (name, k) ∈ folders ->
     (forall p, p ∈ omap k l -> exists ps q, (name, ps) ∈ document w /\ q ∈ ps /\ kind_and_place q = kind_and_place p) /\
     (forall ps q, (name, ps) ∈ document w -> q ∈ ps -> q ∈ omap k l)) /\
  (forall name ps, (name, ps) ∈ document w -> name ∈ map fst folders /\ ps <> []) /\
  NoDup (map fst (document w)).
Proof.
  intros Hn Hw l. destruct (kml_spec fs) as [_ H2]. destruct (H2 Hn) as (w' & E & [_ _ Hs Hsu Hr Hsp Hl Hd]).
  rewrite Hw in E. injection E as <-.
  set (all := [("Saddles"%string, k_saddles w); ("Summits"%string, k_summits w);
     ("SpotElevations"%string, k_spots w); ("Runoffs"%string, k_runoffs w);
     ("Linkers"%string, k_linkers w); ("SummitDomains"%string, k_domains w)]).
  assert (document w = filter (fun f => f.2 <> []) all) as -> by done.
  assert (Hnames : map fst all = map fst folders) by done.
  assert (Hnd : NoDup (map fst folders)).
  { unfold folders. cbn [map fst]. repeat (apply NoDup_cons; split; [rewrite ?elem_of_cons, elem_of_nil; intros Hx; naive_solver|]).
    apply NoDup_nil_2. }
  assert (HF : forall name k, (name, k) ∈ folders -> exists ps, (name, ps) ∈ all /\
    (forall p, p ∈ omap k l -> exists q, q ∈ ps /\ kind_and_place q = kind_and_place p) /\ (forall q, q ∈ ps -> q ∈ omap k l)).
  { intros name k. unfold folders. rewrite !elem_of_cons.
    intros [[= -> ->]|[[= -> ->]|[[= -> ->]|[[= -> ->]|[[= -> ->]|[[= -> ->]|Hx]]]]]]; [..|by apply elem_of_nil in Hx].
    all: eexists; split; [unfold all; rewrite !elem_of_cons; eauto 10|].
    all: split; [by eapply firsts_all|by eapply firsts_sub] || (rewrite Hd; split; [intros p Hp; by exists p|done]). }
  assert (Huniq : forall name ps ps', (name, ps) ∈ all -> (name, ps') ∈ all -> ps = ps').
  { intros name ps ps' Ha Hb. rewrite <-Hnames in Hnd. clear -Ha Hb Hnd. induction all as [|[n p] a IH]; [by apply elem_of_nil in Ha|].
    cbn [map fst] in Hnd. apply NoDup_cons in Hnd as [Hni Hnd].
    apply elem_of_cons in Ha as [Ha|Ha]; apply elem_of_cons in Hb as [Hb|Hb].
    - congruence.
    - injection Ha as -> ->. destruct Hni. apply elem_of_list_fmap. by exists (n, ps').
    - injection Hb as -> ->. destruct Hni. apply elem_of_list_fmap. by exists (n, ps).
    - by apply IH. }
  split; [|split].
  - intros name k Hk. destruct (HF name k Hk) as (ps & Hall & H1 & H3). split.
    + intros p Hp. destruct (H1 p Hp) as (q & Hq & Eq). exists ps, q. split; [|done].
      apply elem_of_list_filter. split; [|done]. cbn. intros ->. by apply elem_of_nil in Hq.
    + intros ps' q Hin Hq. apply elem_of_list_filter in Hin as [_ Hin]. rewrite (Huniq _ _ _ Hin Hall) in Hq. by apply H3.
  - intros name ps Hin. apply elem_of_list_filter in Hin as [Hne Hin]. split; [|done].
    rewrite <-Hnames. apply elem_of_list_fmap. by exists (name, ps).
  - rewrite <-Hnames in Hnd. clear -Hnd. induction all as [|f a IH]; [constructor|].
    cbn [map] in Hnd. apply NoDup_cons in Hnd as [Hni Hnd]. rewrite filter_cons. destruct (decide _); [|by apply IH].
    cbn [map]. apply NoDup_cons. split; [|by apply IH]. intros Hin. apply Hni.
    apply elem_of_list_fmap in Hin as (g & E & Hg). apply elem_of_list_filter in Hg as [_ Hg].
    apply elem_of_list_fmap. by exists g.
Qed.
