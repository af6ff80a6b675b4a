(** Consequences of the scan theorem for the reported containers. *)
From Verif Require Import Analyze_model Raster_spec Feature_spec Raster_proof Contig_proof
  Touch_proof Blob_proof Analyze_proof Area_proof Scan_proof.
From Coq Require Import ZifyBool Sorting.Sorted.
Local Open Scope Z_scope.

Ltac noelem := exfalso; match goal with H : _ ∈ [] |- _ => by apply elem_of_nil in H end.

Lemma first_unique m p q : first_of_flat m p -> first_of_flat m q -> same_flat m p q -> p = q.
Proof.
  intros [_ Hp] [_ Hq] H. destruct (rm_lt_total p q) as [Hlt|[->|Hlt]]; [|done|].
  - destruct (Hq p); [by apply same_flat_sym|done].
  - by destruct (Hp q).
Qed.

Lemma rm_minimum (l : list xy) : l <> [] -> exists p, p ∈ l /\ forall q, q ∈ l -> ~ rm_lt q p.
Proof.
  induction l as [|a l IH]; [done|]. intros _. destruct l as [|b l].
  - exists a. split; [set_solver|]. intros q Hq. apply elem_of_list_singleton in Hq as ->.
    unfold rm_lt. lia.
  - destruct IH as (p & Hp & Hmin); [done|].
    destruct (rm_lt_total a p) as [Hlt|[->|Hlt]].
    + exists a. split; [set_solver|]. intros q [->|Hq]%elem_of_cons; [unfold rm_lt; lia|].
      specialize (Hmin q Hq). unfold rm_lt in *. lia.
    + exists p. split; [set_solver|]. intros q [->|Hq]%elem_of_cons; [unfold rm_lt; lia|]. auto.
    + exists p. split; [set_solver|]. intros q [->|Hq]%elem_of_cons; [unfold rm_lt in *; lia|]. auto.
Qed.

(** Every data cell belongs to the flat area of exactly one first cell. *)
Lemma first_exists m d : map_ok m -> data_cell m d ->
  exists p, first_of_flat m p /\ same_flat m p d.
Proof.
  intros Hok Hd.
  pose proof (equalHeightBlob_spec m d.1 d.2 Hok) as H.
  assert (Hde : (d.1, d.2) = d) by (by destruct d). rewrite Hde in H.
  destruct (H Hd) as (b & _ & _ & _ & Hb & _).
  destruct (rm_minimum (bl_points b)) as (p & Hp & Hmin).
  { intros Hn. assert (d ∈ bl_points b) as Hin by (by apply Hb, same_flat_refl).
    rewrite Hn in Hin. by apply elem_of_nil in Hin. }
  apply Hb in Hp. exists p. split.
  - split; [by eapply same_flat_data_r|]. intros q Hq. apply Hmin, Hb.
    by eapply same_flat_trans.
  - by apply same_flat_sym.
Qed.

(** Moving between cells and cells with elevations. *)
Definition lift (m : datamap) (q : xy) : pte := (q, elev m q).
Lemma rim_lift m p q : higher_rim m p q <-> rim m p (lift m q).
Proof. unfold rim, lift. cbn. tauto. Qed.
Lemma rim_is_lift m p z : rim m p z -> z = lift m (pt_xy z).
Proof. intros [_ H]. destruct z as [q e]. unfold lift. cbn in *. by subst. Qed.
Lemma linked_lift m p a b :
  linked adj8 (higher_rim m p) a b <->
  linked (fun a b => adj8 (pt_xy a) (pt_xy b)) (rim m p) (lift m a) (lift m b).
Proof.
  split.
  - induction 1 as [|b c Hab IH Hc Hbc].
    + apply linked_here. by apply rim_lift.
    + eapply linked_step; [done|by apply rim_lift|done].
  - enough (H : forall z w, linked (fun a b => adj8 (pt_xy a) (pt_xy b)) (rim m p) z w ->
      linked adj8 (higher_rim m p) (pt_xy z) (pt_xy w)).
    { intros Hl. by apply H in Hl. }
    intros z w. induction 1 as [H|w v Hl IH Hv Hwv].
    + apply linked_here. apply H.
    + eapply linked_step; [done|apply Hv|done].
Qed.

Lemma components_two m p hp : components (rim m p) hp -> (2 <= length hp)%nat <-> two_sided m p.
Proof.
  intros Hc. split.
  - intros Hl. destruct hp as [|g [|h hp]]; cbn in Hl; try lia.
    assert (Hg : g <> []) by (apply (comp_nonempty _ _ Hc); els).
    assert (Hh : h <> []) by (apply (comp_nonempty _ _ Hc); els).
    destruct g as [|a g]; [done|]. destruct h as [|b h]; [done|].
    assert (Ha : rim m p a) by (apply (comp_all _ _ Hc); cbn; els).
    assert (Hb : rim m p b).
    { apply (comp_all _ _ Hc). apply elem_of_list_In, in_concat. exists (b :: h).
      split; [right; by left|by left]. }
    exists (pt_xy a), (pt_xy b). split_and!; [apply Ha|apply Hb|].
    rewrite linked_lift, <-(rim_is_lift m p a), <-(rim_is_lift m p b) by done.
    intros Hlk. pose proof (comp_linked _ _ Hc 0%nat 1%nat _ _ a b eq_refl eq_refl) as H.
    apply H in Hlk; [done| |]; els.
  - intros (a & b & Ha & Hb & Hn). apply rim_lift in Ha, Hb.
    pose proof (proj2 (comp_all _ _ Hc _) Ha) as Ha'.
    pose proof (proj2 (comp_all _ _ Hc _) Hb) as Hb'.
    rewrite linked_lift in Hn.
    apply concat_elem_index in Ha' as (i & g & Hi & Hag).
    apply concat_elem_index in Hb' as (j & h & Hj & Hbh).
    destruct (decide (i = j)) as [He|Hne].
    { destruct Hn. by eapply (comp_linked _ _ Hc i j). }
    apply lookup_lt_Some in Hi, Hj. lia.
Qed.

Lemma components_nonnil m p hp : components (rim m p) hp -> hp <> [] <-> exists q, higher_rim m p q.
Proof.
  intros Hc. split.
  - intros Hn. destruct hp as [|g hp]; [done|].
    assert (Hg : g <> []) by (apply (comp_nonempty _ _ Hc); els).
    destruct g as [|a g]; [done|]. exists (pt_xy a).
    apply (comp_all _ _ Hc). cbn. els.
  - intros [q Hq] ->. apply rim_lift in Hq. apply (comp_all _ _ Hc) in Hq. cbn in Hq. noelem.
Qed.

Lemma no_rim m p : (forall z, ~ rim m p z) <-> (forall q, ~ higher_rim m p q).
Proof.
  split; intros H z Hz.
  - apply rim_lift in Hz. by apply H in Hz.
  - destruct Hz as [Hz _]. by apply H in Hz.
Qed.
Lemma members_edge m p : (exists z, border_members m p z) <-> on_edge m p.
Proof.
  split.
  - intros (z & ? & ? & ?). by exists (pt_xy z).
  - intros (c & ? & ?). by exists (c, elev m p).
Qed.
Lemma no_members m p : (forall z, ~ border_members m p z) <-> ~ on_edge m p.
Proof.
  rewrite <-members_edge. split.
  - intros H [z Hz]. by apply H in Hz.
  - intros H z Hz. apply H. by exists z.
Qed.

Lemma area_cells_covers m p multi k pos e b ep h :
  area_cells m p multi -> same_flat m p pos ->
  forall c, covers (Feat k pos e multi b ep h) c <-> same_flat m p c.
Proof.
  intros [[-> H]|[[Hnd H] (d & Hd & Hdp)]] Hpos c; unfold covers; cbn.
  - rewrite H. apply H in Hpos as ->. split; [intros [[_ ?]|?]; [done|noelem]|tauto].
  - rewrite H. cbn. split; [|tauto]. intros [[-> ->]|[_ ?]]; [|done].
    exfalso. assert ((d, None) ∈ @nil mpoint) as He by (by apply H). noelem.
Qed.
Lemma area_cells_once m p multi : area_cells m p multi -> NoDup multi.
Proof. intros [[-> _]|[[? _] _]]; [constructor|done]. Qed.
Lemma area_cells_plain m p multi z : area_cells m p multi -> z ∈ multi -> z.2 = None.
Proof. intros [[-> _]|[[_ H] _]] Hz; [noelem|]. by apply H in Hz as [? _]. Qed.

Lemma enumerates_nil {A} (S : A -> Prop) : (forall a, ~ S a) -> enumerates S [].
Proof. intros H. split; [constructor|]. intros a. split; [intros; noelem|]. intros Ha. by apply H in Ha. Qed.

(** Positions in a concatenation of lists with at most one element each. *)
Lemma concat_short_unique {A} (P : A -> Prop) (ls : list (list A)) :
  (forall l a, l ∈ ls -> a ∈ l -> P a -> (length l <= 1)%nat) ->
  (forall i j l k a b, ls !! i = Some l -> ls !! j = Some k -> a ∈ l -> b ∈ k ->
     P a -> P b -> i = j) ->
  forall u v a b, concat ls !! u = Some a -> concat ls !! v = Some b -> P a -> P b -> u = v.
Proof.
  induction ls as [|l ls IH]; intros Hlen Hu u v a b Ha Hb Pa Pb; [done|].
  cbn in Ha, Hb.
  assert (IH' : forall u v a b, concat ls !! u = Some a -> concat ls !! v = Some b ->
            P a -> P b -> u = v).
  { apply IH; [intros k c Hk; apply Hlen; els|].
    intros i j l' k' a' b' Hi Hj. intros. enough (S i = S j) by lia.
    eapply (Hu (S i) (S j)); try done. }
  assert (Hcl : forall w c, concat ls !! w = Some c -> exists j k, ls !! j = Some k /\ c ∈ k).
  { intros w c Hw. apply elem_of_list_lookup_2, concat_elem_index in Hw as (j & k & ? & ?). eauto. }
  apply lookup_app_Some in Ha as [Ha|[Hua Ha]], Hb as [Hb|[Hub Hb]].
  - assert (Hl : (length l <= 1)%nat).
    { apply (Hlen l a); [els| |done]. by apply elem_of_list_lookup_2 in Ha. }
    apply lookup_lt_Some in Ha, Hb. lia.
  - exfalso. apply elem_of_list_lookup_2 in Ha. apply Hcl in Hb as (j & k & Hj & Hk).
    pose proof (Hu 0%nat (S j) l k a b eq_refl Hj Ha Hk Pa Pb). lia.
  - exfalso. apply elem_of_list_lookup_2 in Hb. apply Hcl in Ha as (j & k & Hj & Hk).
    pose proof (Hu 0%nat (S j) l k b a eq_refl Hj Hb Hk Pb Pa). lia.
  - enough (u - length l = v - length l)%nat by lia. by eapply IH'.
Qed.

Lemma filter_concat_map {A B} (P : B -> Prop) `{forall b, Decision (P b)} (f : A -> list B) l :
  filter P (concat (map f l)) = concat (map (fun a => filter P (f a)) l).
Proof. induction l as [|a l IH]; [done|]. cbn. rewrite filter_app. by f_equal. Qed.


(** Features of an area cover only its cells. *)
Lemma area_feature m p fs f : area_result m p fs -> f ∈ fs ->
  (forall c, covers f c -> same_flat m p c) /\ same_flat m p (ft_pos f) /\ ft_ele f = elev m p.
Proof.
  intros H Hf. destruct H as
    [pos multi Hpos Hcells Hr Hb
    |pos multi epts Hpos Hcells Hr Hb He
    |pos multi hp Hpos Hcells Hc Hhp Hb
    |pos multi epts hp ring lower Hpos Hcells Hc Hhp Hb He Hring Hlow Hlen
    |pos multi hp ring lower borders drained runoffs multi' rest Hpos Hcells Hc Hhp Hb Hring
       Hlow Hlen Hborders Hdr Hrun Hmulti Hrest].
  - apply elem_of_list_singleton in Hf as ->. split_and!; try done.
    intros c Hcv. by eapply area_cells_covers.
  - apply elem_of_cons in Hf as [->|Hf]; [|apply elem_of_list_singleton in Hf as ->];
      (split_and!; try done; intros c Hcv; by eapply area_cells_covers).
  - destruct (decide _); [|noelem]. apply elem_of_list_singleton in Hf as ->.
    split_and!; try done. intros c Hcv. by eapply area_cells_covers.
  - destruct (decide _); [|noelem]. apply elem_of_list_singleton in Hf as ->.
    split_and!; try done. intros c Hcv. by eapply area_cells_covers.
  - apply elem_of_app in Hf as [Hf|Hf].
    + apply elem_of_list_lookup in Hf as [i Hi].
      destruct (Forall2_lookup_r _ _ _ _ _ Hrun Hi) as (g & Hg & mid & Hmid & Hk & Hp & Hele & Hm & _).
      assert (Hmb : border_members m p mid).
      { apply (comp_all _ _ Hborders). apply elem_of_list_In, in_concat. exists g.
        split; [|by apply elem_of_list_In]. apply elem_of_list_In.
        apply elem_of_list_lookup_2 in Hg. destruct Hdr as (sel & Hperm & Hsub & _).
        rewrite Hperm in Hg. by eapply sublist_elem. }
      destruct Hmb as [Hmb _].
      split_and!; [|by rewrite Hp|done].
      intros c [[_ ->]|Hcv]; [by rewrite Hp|]. rewrite Hm in Hcv. noelem.
    + destruct (decide _); [|noelem].
      assert (Hff : exists b ep, f = Feat KSaddle pos (elev m p) multi' b ep hp).
      { destruct (decide _); apply elem_of_list_singleton in Hf as ->; eauto. }
      destruct Hff as (b & ep & ->). split_and!; try done.
      destruct Hmulti as (extra & -> & Hext & Hex).
      intros c Hcv. apply (area_cells_covers m p multi KSaddle pos (elev m p) b ep hp Hcells Hpos c).
      destruct Hcv as [[Hn ->]|Hcv]; cbn in *.
      * left. apply app_eq_nil in Hn as [-> _]. done.
      * right. cbn. apply elem_of_app in Hcv as [?|Hcv]; [done|].
        apply Hex in Hcv as (q & _ & Hq). by injection Hq.
Qed.

(** The saddles of an area. *)
Lemma area_saddle m p fs : area_result m p fs ->
  (two_sided m p -> exists f, filter (fun f => ft_kind f = KSaddle) fs = [f] /\
     stands_for m p f /\ components (rim m p) (ft_hpn f) /\
     (~ on_edge m p -> exact_for m p f)) /\
  (~ two_sided m p -> filter (fun f => ft_kind f = KSaddle) fs = []).
Proof.
  intros H. destruct H as
    [pos multi Hpos Hcells Hr Hb
    |pos multi epts Hpos Hcells Hr Hb He
    |pos multi hp Hpos Hcells Hc Hhp Hb
    |pos multi epts hp ring lower Hpos Hcells Hc Hhp Hb He Hring Hlow Hlen
    |pos multi hp ring lower borders drained runoffs multi' rest Hpos Hcells Hc Hhp Hb Hring
       Hlow Hlen Hborders Hdr Hrun Hmulti Hrest].
  - split; [|done]. intros (a & _ & Ha & _). by apply no_rim in Ha.
  - split; [|done]. intros (a & _ & Ha & _). by apply no_rim in Ha.
  - rewrite <-(components_two _ _ _ Hc). split; intros Hl.
    + rewrite decide_True by done. eexists. split; [done|].
      assert (Hsf : stands_for m p (Feat KSaddle pos (elev m p) multi false [] hp)).
      { split; try done. by apply area_cells_covers. }
      split_and!; try done. intros _. split; cbn; try done.
      * by eapply area_cells_once.
      * intros z Hz. by eapply area_cells_plain.
      * apply no_members in Hb. split; [done|tauto].
      * by apply enumerates_nil.
    + by rewrite decide_False by done.
  - rewrite <-(components_two _ _ _ Hc). split; intros Hl.
    + rewrite decide_True by done. eexists. split; [done|].
      split_and!; try done.
      * split; try done. by apply area_cells_covers.
      * intros Hn. destruct Hn. by apply members_edge.
    + by rewrite decide_False by done.
  - assert (Hnil : filter (fun f => ft_kind f = KSaddle) runoffs = []).
    { clear -Hrun. induction Hrun as [|g f gs fs Hg Hrun IH]; [done|].
      destruct Hg as (mid & _ & Hk & _). rewrite filter_cons_False by congruence. done. }
    rewrite <-(components_two _ _ _ Hc). rewrite filter_app, Hnil, app_nil_l. split; intros Hl.
    + rewrite decide_True by done.
      assert (Hsf : forall b ep, stands_for m p (Feat KSaddle pos (elev m p) multi' b ep hp)).
      { intros b ep. split; try done. intros c.
        rewrite <-(area_cells_covers m p multi KSaddle pos (elev m p) b ep hp Hcells Hpos c).
        destruct Hmulti as (extra & -> & Hext & Hex). unfold covers. cbn.
        rewrite elem_of_app. split.
        - intros [[Hn ->]|[Hcv|Hcv]].
          + left. apply app_eq_nil in Hn as [-> _]. done.
          + by right.
          + apply Hex in Hcv as (q & _ & Hq). by injection Hq.
        - intros [[-> ->]|Hcv]; [|by auto]. left. by rewrite Hext. }
      destruct (decide (length drained = length borders)); (eexists; split; [done|]);
        (split_and!; try done; intros Hn; destruct Hn; by apply members_edge).
    + by rewrite decide_False by done.
Qed.

(** The summits of an area. *)
Lemma area_summit m p fs : data_cell m p -> area_result m p fs ->
  (peak m p -> exists f, filter (fun f => ft_kind f = KSummit) fs = [f] /\
     exact_for m p f /\ ft_hpn f = []) /\
  (~ peak m p -> filter (fun f => ft_kind f = KSummit) fs = []).
Proof.
  intros Hd H. destruct H as
    [pos multi Hpos Hcells Hr Hb
    |pos multi epts Hpos Hcells Hr Hb He
    |pos multi hp Hpos Hcells Hc Hhp Hb
    |pos multi epts hp ring lower Hpos Hcells Hc Hhp Hb He Hring Hlow Hlen
    |pos multi hp ring lower borders drained runoffs multi' rest Hpos Hcells Hc Hhp Hb Hring
       Hlow Hlen Hborders Hdr Hrun Hmulti Hrest].
  1,2: split; [intros _|intros Hn; destruct Hn; split; [done|by apply no_rim]].
  - eexists. split; [done|]. split; [|done]. split; cbn; try done.
    + split; try done. by apply area_cells_covers.
    + by eapply area_cells_once.
    + intros z Hz. by eapply area_cells_plain.
    + apply no_members in Hb. split; [done|tauto].
    + by apply enumerates_nil.
  - eexists. split; [done|]. split; [|done]. split; cbn; try done.
    + split; try done. by apply area_cells_covers.
    + by eapply area_cells_once.
    + intros z Hz. by eapply area_cells_plain.
    + apply members_edge in Hb. split; done.
  - apply (components_nonnil _ _ _ Hc) in Hhp as [q Hq].
    split; [intros [_ Hp]; by apply Hp in Hq|]. intros _. by destruct (decide _).
  - apply (components_nonnil _ _ _ Hc) in Hhp as [q Hq].
    split; [intros [_ Hp]; by apply Hp in Hq|]. intros _. by destruct (decide _).
  - apply (components_nonnil _ _ _ Hc) in Hhp as [q Hq].
    split; [intros [_ Hp]; by apply Hp in Hq|]. intros _.
    assert (Hnil : filter (fun f => ft_kind f = KSummit) runoffs = []).
    { clear -Hrun. induction Hrun as [|g f gs fs Hg Hrun IH]; [done|].
      destruct Hg as (mid & _ & Hk & _). rewrite filter_cons_False by congruence. done. }
    rewrite filter_app, Hnil. by repeat destruct (decide _).
Qed.


Lemma area_runoff m p fs : data_cell m p -> area_result m p fs ->
  area_runoffs m p (filter (fun f => ft_kind f = KRunoff) fs).
Proof.
  intros Hd H. destruct H as
    [pos multi Hpos Hcells Hr Hb
    |pos multi epts Hpos Hcells Hr Hb He
    |pos multi hp Hpos Hcells Hc Hhp Hb
    |pos multi epts hp ring lower Hpos Hcells Hc Hhp Hb He Hring Hlow Hlen
    |pos multi hp ring lower borders drained runoffs multi' rest Hpos Hcells Hc Hhp Hb Hring
       Hlow Hlen Hborders Hdr Hrun Hmulti Hrest].
  - apply no_members in Hb. by split_and!.
  - assert (Hpk : peak m p) by (split; [done|by apply no_rim]).
    pose proof (proj1 (members_edge _ _) Hb) as Hb'.
    split_and!; [done| |done]. intros _ _. eexists. split; [done|]. split; [|done].
    split; cbn; try done.
    + split; try done. by apply area_cells_covers.
    + by eapply area_cells_once.
    + intros z Hz. by eapply area_cells_plain.
  - apply no_members in Hb.
    assert (Hnil : filter (fun f => ft_kind f = KRunoff) (if decide (2 <= length hp)%nat
         then [Feat KSaddle pos (elev m p) multi false [] hp] else []) = [])
      by (by destruct (decide _)).
    rewrite Hnil. by split_and!.
  - assert (Hpk : ~ peak m p).
    { intros [_ Hp]. apply (components_nonnil _ _ _ Hc) in Hhp as [q Hq]. by apply Hp in Hq. }
    apply members_edge in Hb.
    assert (Hnil : filter (fun f => ft_kind f = KRunoff) (if decide (2 <= length hp)%nat
         then [Feat KSaddle pos (elev m p) multi true epts hp] else []) = [])
      by (by destruct (decide _)).
    rewrite Hnil. split_and!; try done. intros _ _. exists hp, ring, lower.
    split_and!; try done. lia.
  - assert (Hpk : ~ peak m p).
    { intros [_ Hp]. apply (components_nonnil _ _ _ Hc) in Hhp as [q Hq]. by apply Hp in Hq. }
    apply members_edge in Hb.
    rewrite filter_app.
    assert (Hall : filter (fun f => ft_kind f = KRunoff) runoffs = runoffs).
    { clear -Hrun. induction Hrun as [|g f gs fs Hg Hrun IH]; [done|].
      destruct Hg as (mid & _ & Hk & _). rewrite filter_cons_True by congruence. by rewrite IH. }
    rewrite Hall.
    match goal with |- area_runoffs _ _ (_ ++ ?l) => assert (Hnil : l = []) end.
    { by repeat destruct (decide _). }
    rewrite Hnil, app_nil_r. split_and!; try done. intros _ _. exists hp, ring, lower.
    split_and!; try done; [lia|]. intros _. by exists borders, drained, multi.
Qed.

Lemma selected_all {A} (P : A -> Prop) (gs bits : list A) :
  NoDup gs -> selected P gs bits -> length bits = length gs <-> forall g, g ∈ gs -> P g.
Proof.
  intros Hnd (sel & Hperm & Hsub & Hsel). rewrite (Permutation_length Hperm). split.
  - intros Hl g Hg. apply Hsel; [done|]. enough (sel = gs) as -> by done.
    clear -Hl Hsub. induction Hsub as [|a l k H IH|a l k H IH]; cbn in *.
    + done.
    + f_equal. apply IH. lia.
    + apply sublist_length in H. lia.
  - intros Hall. apply sublist_length in Hsub as Hle.
    enough (length gs <= length sel)%nat by lia.
    apply NoDup_incl_length; [by apply NoDup_ListNoDup|].
    intros g Hg%elem_of_list_In. apply elem_of_list_In, Hsel; auto.
Qed.

(** Border information of the saddle of a border area. *)
Lemma area_saddle_edge m p fs f : area_result m p fs -> on_edge m p -> f ∈ of_kind KSaddle fs ->
  border_saddle_edge m p f.
Proof.
  intros H He Hf. apply elem_of_list_filter in Hf as [Hk Hf].
  destruct H as
    [pos multi Hpos Hcells Hr Hb
    |pos multi epts Hpos Hcells Hr Hb Hep
    |pos multi hp Hpos Hcells Hc Hhp Hb
    |pos multi epts hp ring lower Hpos Hcells Hc Hhp Hb Hep Hring Hlow Hlen
    |pos multi hp ring lower borders drained runoffs multi' rest Hpos Hcells Hc Hhp Hb Hring
       Hlow Hlen Hborders Hdr Hrun Hmulti Hrest].
  - by apply no_members in Hb.
  - apply elem_of_cons in Hf as [->|Hf]; [done|]. by apply elem_of_list_singleton in Hf as ->.
  - by apply no_members in Hb.
  - destruct (decide _); [|noelem]. apply elem_of_list_singleton in Hf as ->.
    exists ring, lower. split_and!; try done. lia.
  - apply elem_of_app in Hf as [Hf|Hf].
    { apply elem_of_list_lookup in Hf as [i Hi].
      destruct (Forall2_lookup_r _ _ _ _ _ Hrun Hi) as (g & Hg & mid & Hmid & Hk' & _). congruence. }
    destruct (decide _); [|noelem].
    assert (Hnb : NoDup borders) by (apply NoDup_groups; apply Hborders).
    exists ring, lower. split_and!; try done; [lia|]. intros _. exists borders, drained.
    rewrite <-(selected_all _ _ _ Hnb Hdr).
    destruct (decide (length drained = length borders)) as [E|E];
      apply elem_of_list_singleton in Hf as ->; split_and!; try done.
    apply enumerates_nil. intros z [Hz Hnz]. apply Hnz.
    apply (comp_all _ _ Hborders), elem_of_list_In, in_concat in Hz as (g & Hg & Hz).
    apply elem_of_list_In, in_concat. exists g. split; [|done].
    apply elem_of_list_In in Hg. apply elem_of_list_In.
    pose proof (proj1 (selected_all _ _ _ Hnb Hdr) E g Hg) as Ht.
    destruct Hdr as (sel & -> & _ & Hsel). by apply Hsel.
Qed.

Section containers.
  Context (fp : datamap -> list xy -> xy -> xy -> option Q) (orc : xy -> nat -> nat -> nat).
  Context (m : datamap) (Hok : map_ok m) (Hfp : paths_found fp m).

  (** A cell that is covered by the only feature of kind [k] of its area is
      covered by exactly one feature of that kind overall. *)
  Lemma kind_exactly_one (areas : list (xy * list feature)) k d p fs f :
    (forall p fs, (p, fs) ∈ areas -> area_result m p fs) ->
    (forall p, p ∈ map fst areas <-> first_of_flat m p) ->
    StronglySorted rm_lt (map fst areas) ->
    same_flat m p d -> (p, fs) ∈ areas -> of_kind k fs = [f] -> covers f d ->
    exactly_one (fun f => covers f d) (of_kind k (concat (map snd areas))).
  Proof.
    intros Hres Hfirst Hsort Hpd Hp Hf Hcv.
    assert (Hnd : NoDup (map fst areas)).
    { clear -Hsort. induction Hsort as [|a l _ IH Ha]; constructor; [|done].
      intros Hin. rewrite Forall_forall in Ha. apply (rm_lt_irrefl a), Ha. done. }
    (* any area with a feature covering [d] is the area of [p] *)
    assert (Huniq : forall i q gs g, areas !! i = Some (q, gs) -> g ∈ gs -> covers g d -> q = p).
    { intros i q gs g Hi Hg Hgd. apply elem_of_list_lookup_2 in Hi.
      destruct (area_feature m q gs g (Hres _ _ Hi) Hg) as [Hc _]. apply Hc in Hgd.
      apply (first_unique m).
      - apply Hfirst. apply elem_of_list_fmap. by exists (q, gs).
      - apply Hfirst. apply elem_of_list_fmap. by exists (p, fs).
      - eapply same_flat_trans; [done|by apply same_flat_sym]. }
    assert (Hidx : forall i j q gs gs', areas !! i = Some (q, gs) -> areas !! j = Some (q, gs') -> i = j).
    { intros i j q gs gs' Hi Hj. eapply (NoDup_lookup _ i j q Hnd); rewrite list_lookup_fmap.
      - by rewrite Hi.
      - by rewrite Hj. }
    unfold of_kind in *. rewrite filter_concat_map.
    assert (Hin : f ∈ concat (map (fun a => filter (fun f => ft_kind f = k) (snd a)) areas)).
    { apply elem_of_list_In, in_concat. exists [f]. split; [|by left]. apply in_map_iff.
      exists (p, fs). split; [done|by apply elem_of_list_In]. }
    apply elem_of_list_lookup in Hin as [u Hu]. exists u, f. split_and!; [done|done|].
    intros v g Hv Hgd. refine (concat_short_unique (fun f => covers f d) _ _ _ _ _ _ _ Hv Hu Hgd Hcv).
    - intros l a Hl Ha Hcova. apply elem_of_list_In, in_map_iff in Hl as ([q gs] & <- & Hq).
      apply elem_of_list_In in Hq. cbn in *.
      assert (q = p) as ->.
      { apply elem_of_list_lookup in Hq as [i Hi]. eapply Huniq; [done| |done].
        apply elem_of_list_filter in Ha as [_ Ha]. done. }
      assert (gs = fs) as ->.
      { apply elem_of_list_lookup in Hq as [i Hi]. apply elem_of_list_lookup in Hp as [j Hj].
        pose proof (Hidx _ _ _ _ _ Hi Hj) as ->. congruence. }
      rewrite Hf. cbn. lia.
    - intros i j l l' a b Hi Hj Ha Hb Hca Hcb.
      rewrite list_lookup_fmap in Hi, Hj.
      destruct (areas !! i) as [[q gs]|] eqn:Ei; [|done].
      destruct (areas !! j) as [[q' gs']|] eqn:Ej; [|done]. cbn in Hi, Hj.
      injection Hi as <-. injection Hj as <-.
      apply elem_of_list_filter in Ha as [_ Ha]. apply elem_of_list_filter in Hb as [_ Hb].
      assert (q = p) as -> by (by eapply Huniq). assert (q' = p) as -> by (by eapply Huniq).
      by eapply Hidx.
  Qed.

  Lemma area_of (areas : list (xy * list feature)) d :
    (forall p, p ∈ map fst areas <-> first_of_flat m p) -> data_cell m d ->
    exists p fs, (p, fs) ∈ areas /\ same_flat m p d /\ first_of_flat m p.
  Proof.
    intros Hfirst Hd. destruct (first_exists m d Hok Hd) as (p & Hp & Hpd).
    apply Hfirst in Hp as Hp'. apply elem_of_list_fmap in Hp' as ([p' fs] & -> & Hin).
    by exists p', fs.
  Qed.

  (** Properties of a flat area do not depend on the chosen cell. *)
  Lemma rim_same p d q : same_flat m p d -> higher_rim m p q <-> higher_rim m d q.
  Proof.
    intros H. unfold higher_rim. rewrite (same_flat_elev _ _ _ H).
    split; intros (? & ? & c & Hc & ?); (split_and!; [done|done|]); exists c; (split; [|done]).
    - eapply same_flat_trans; [by apply same_flat_sym|done].
    - by eapply same_flat_trans.
  Qed.
  Lemma peak_same p d : same_flat m p d -> peak m p <-> peak m d.
  Proof.
    intros H. split; intros [_ Hp]; split.
    - by eapply same_flat_data_r.
    - intros q. rewrite <-(rim_same p d q H). apply Hp.
    - by eapply same_flat_data_l.
    - intros q. rewrite (rim_same p d q H). apply Hp.
  Qed.
  Lemma edge_same p d : same_flat m p d -> on_edge m p <-> on_edge m d.
  Proof.
    intros H. split; intros (c & Hc & Hb); exists c; (split; [|done]).
    - eapply same_flat_trans; [by apply same_flat_sym|done].
    - by eapply same_flat_trans.
  Qed.
  Lemma two_sided_same p d : same_flat m p d -> two_sided m p <-> two_sided m d.
  Proof.
    intros H. assert (Hl : forall a b, linked adj8 (higher_rim m p) a b <-> linked adj8 (higher_rim m d) a b).
    { intros a b. split; apply linked_mono; try done; intros; by apply (rim_same p d _ H). }
    unfold two_sided. split; intros (a & b & Ha & Hb & Hn); exists a, b.
    - by rewrite <-!(rim_same p d _ H), <-Hl.
    - by rewrite !(rim_same p d _ H), Hl.
  Qed.
  Lemma components_ext (S T : pte -> Prop) gs :
    (forall z, S z <-> T z) -> components S gs -> components T gs.
  Proof.
    intros H Hc. split; try apply Hc.
    - intros z. rewrite <-H. apply Hc.
    - intros i j g h a b Hi Hj Ha Hb. rewrite (comp_linked _ _ Hc i j g h a b) by done.
      split; apply linked_mono; try done; intros; by apply H.
  Qed.
  Lemma members_same p d z : same_flat m p d -> border_members m p z <-> border_members m d z.
  Proof.
    intros H. unfold border_members. rewrite (same_flat_elev _ _ _ H).
    by rewrite (same_flat_iff m p d _ H).
  Qed.
  Lemma stands_same p d f : same_flat m p d -> stands_for m p f -> stands_for m d f.
  Proof.
    intros H [Hc Hp He]. split.
    - intros c. by rewrite Hc, <-(same_flat_iff m p d _ H).
    - by apply (same_flat_iff m p d _ H).
    - by rewrite He, (same_flat_elev _ _ _ H).
  Qed.
  Lemma exact_same p d f : same_flat m p d -> exact_for m p f -> exact_for m d f.
  Proof.
    intros H [Hs Ho Hpl He Hep]. split; try done.
    - by eapply stands_same.
    - by rewrite He, (edge_same p d H).
    - destruct Hep as [Hnd Hep]. split; [done|]. intros z. by rewrite Hep, (members_same p d z H).
  Qed.

  Theorem summits_exact :
    exists su sa ru, analyze fp orc m = Ok (su, sa, ru) /\
      (forall f, f ∈ su -> exists p, peak m p /\ exact_for m p f) /\
      (forall p, peak m p -> exactly_one (fun f => covers f p) su).
  Proof.
    destruct (analyze_all_spec fp orc m Hok Hfp) as (areas & Heq & Hres & Hfirst & Hsort).
    unfold analyze. rewrite Heq. cbn [rbind]. eexists _, _, _. split; [done|]. split.
    - intros f Hf. rewrite filter_concat_map in Hf.
      apply elem_of_list_In, in_concat in Hf as (l & Hl & Hf).
      apply in_map_iff in Hl as ([p fs] & <- & Hp). apply elem_of_list_In in Hp, Hf. cbn in Hf.
      assert (Hd : data_cell m p).
      { apply (proj1 (Hfirst p)). apply elem_of_list_fmap. by exists (p, fs). }
      destruct (area_summit m p fs Hd (Hres _ _ Hp)) as [Hy Hn].
      assert (Hpk : peak m p).
      { split; [done|]. intros q Hq. rewrite Hn in Hf; [noelem|]. intros [_ H]. by apply H in Hq. }
      destruct (Hy Hpk) as (f' & Hf' & Hex & _). rewrite Hf' in Hf.
      apply elem_of_list_singleton in Hf as ->. by exists p.
    - intros d Hd. destruct (area_of areas d Hfirst) as (p & fs & Hp & Hpd & Hpf); [apply Hd|].
      destruct (area_summit m p fs (proj1 Hpf) (Hres _ _ Hp)) as [Hy _].
      destruct Hy as (f & Hf & Hex & _); [by apply (peak_same p d)|].
      eapply (kind_exactly_one areas KSummit d p fs f); try done.
      by apply (sf_cells _ _ _ (ex_stands _ _ _ Hex)).
  Qed.

  Theorem saddles_exact :
    exists su sa ru, analyze fp orc m = Ok (su, sa, ru) /\
      (forall f, f ∈ sa -> exists p, data_cell m p /\ two_sided m p /\ stands_for m p f /\
         components (rim m p) (ft_hpn f) /\ (~ on_edge m p -> exact_for m p f)) /\
      (forall p, data_cell m p -> two_sided m p -> exactly_one (fun f => covers f p) sa).
  Proof.
    destruct (analyze_all_spec fp orc m Hok Hfp) as (areas & Heq & Hres & Hfirst & Hsort).
    unfold analyze. rewrite Heq. cbn [rbind]. eexists _, _, _. split; [done|]. split.
    - intros f Hf. rewrite filter_concat_map in Hf.
      apply elem_of_list_In, in_concat in Hf as (l & Hl & Hf).
      apply in_map_iff in Hl as ([p fs] & <- & Hp). apply elem_of_list_In in Hp, Hf. cbn in Hf.
      assert (Hd : data_cell m p).
      { apply (proj1 (Hfirst p)). apply elem_of_list_fmap. by exists (p, fs). }
      assert (Hts : two_sided m p \/ ~ two_sided m p).
      { destruct (Hres _ _ Hp); try (right; intros (a & _ & Ha & _); by eapply (proj1 (no_rim _ _)) in Ha);
          match goal with H : components _ _ |- _ => rewrite <-(components_two _ _ _ H) end; lia. }
      destruct (area_saddle m p fs (Hres _ _ Hp)) as [Hy Hn].
      destruct Hts as [Hts|Hts]; [|rewrite Hn in Hf by done; noelem].
      destruct (Hy Hts) as (f' & Hf' & Hst & Hc & Hex). rewrite Hf' in Hf.
      apply elem_of_list_singleton in Hf as ->. exists p. by split_and!.
    - intros d Hd Hts. destruct (area_of areas d Hfirst Hd) as (p & fs & Hp & Hpd & Hpf).
      destruct (area_saddle m p fs (Hres _ _ Hp)) as [Hy _].
      destruct Hy as (f & Hf & Hex & _); [by apply (two_sided_same p d)|].
      eapply (kind_exactly_one areas KSaddle d p fs f); try done.
      by apply (sf_cells _ _ _ Hex).
  Qed.

  Lemma border_classification :
    exists areas, analyze_all fp orc m = Ok (concat (map snd areas)) /\
    (forall p, p ∈ map fst areas <-> first_of_flat m p) /\
    StronglySorted rm_lt (map fst areas) /\
    forall p fs, (p, fs) ∈ areas -> on_edge m p ->
      (peak m p -> exists f, of_kind KSummit fs = [f] /\ exact_for m p f) /\
      (~ peak m p -> of_kind KSummit fs = []) /\
      (two_sided m p -> exists f, of_kind KSaddle fs = [f] /\ stands_for m p f /\
         components (rim m p) (ft_hpn f) /\ border_saddle_edge m p f) /\
      (~ two_sided m p -> of_kind KSaddle fs = []) /\
      area_runoffs m p (of_kind KRunoff fs).
  Proof.
    destruct (analyze_all_spec fp orc m Hok Hfp) as (areas & Heq & Hres & Hfirst & Hsort).
    exists areas. split_and!; try done. intros p fs Hp He.
    assert (Hd : data_cell m p).
    { apply (proj1 (Hfirst p)). apply elem_of_list_fmap. by exists (p, fs). }
    destruct (area_summit m p fs Hd (Hres _ _ Hp)) as [S1 S2].
    destruct (area_saddle m p fs (Hres _ _ Hp)) as [T1 T2].
    split_and!; try done.
    - intros Hpk. destruct (S1 Hpk) as (f & ? & ? & _). by exists f.
    - intros Hts. destruct (T1 Hts) as (f & Hf & ? & ? & _). exists f. split_and!; try done.
      eapply area_saddle_edge; [by apply Hres|done|]. unfold of_kind. rewrite Hf. by left.
    - by apply area_runoff, Hres.
  Qed.
End containers.
