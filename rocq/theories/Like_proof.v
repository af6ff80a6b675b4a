(** The loaded map has the objects of the analysis. *)
From Verif Require Import Base_model Graph_model Graph_spec Basin_model Basin_spec Persist_model Persist_spec Persist_proof
  Store_model Store_spec Store_proof.
Local Open Scope nat_scope.

Lemma named_forall {A B} (name : nat -> string) (get : nat -> option A) (put : nat -> A -> B) l :
  (forall i, i ∈ l -> is_Some (get i)) ->
  Forall2 (fun i e => i ∈ l /\ e.1 = name i /\ exists a, get i = Some a /\ e.2 = put i a) l (named name get put l).
Proof.
  induction l as [|i l IH]; intros H; [constructor|]. unfold named. cbn. destruct (H i) as [a E]; [by left|]. rewrite E. cbn.
  constructor; [split; [by left|]; by eauto|]. eapply Forall2_impl; [apply IH; intros j Hj; apply H; by right|].
  intros j e [Hj ?]. split; [by right|done].
Qed.

Section like.
  Context (m : datamap) (su_name sa_name ln_name : nat -> string) (rim_of : feature -> perimeter * bool * list pte).
  Context (Hsu : naming su_name) (Hsa : naming sa_name) (Hln : naming ln_name).
  Context (d : dmap) (doms : list nat) (pts : nat -> list pte) (Hw : whole d).
  Let p := store m su_name sa_name ln_name rim_of d doms pts.
  Context (Hm : meshed m d) (p' : pmap) (Hr : reloaded p p').

  Lemma kept_spread f o : kept_multi (area rim_of f) o -> spread rim_of f o.
  Proof.
    unfold area, kept_multi. destruct (decide (ft_multi f = [])) as [E|E]; [by intros ->|]. cbn. destruct (decide _); [done|].
    intros (b & b' & [= <-] & Hk & ->). cbn. split; [done|]. split; [by rewrite map_map|]. split; [done|].
    exists b'. split; [done|]. destruct Hk as [K1 K2 K3 K4 K5]. cbn in *. rewrite K4, K5. split; [done|]. split; [done|].
    intros x Hx. apply K1 in Hx as (l1 & l2 & E2 & _). rewrite E2. apply elem_of_app. right. by left.
  Qed.
  Lemma spot_placed f s : s = ft_spot m f -> placed m f s.
  Proof. intros ->. unfold placed, ft_spot, ft_latlon. split; [|done]. cbn [sp_lat sp_lon]. by rewrite <-surjective_pairing. Qed.

  Lemma end_links f g k l : (forall x, f (stored_link su_name sa_name x) = g x) ->
    firsts (fun a b => twin p a.2 b.2) (at_end f p k) l ->
    forall n, n ∈ map fst l -> exists j x, n = ln_name j /\ j ∈ mp_linkers d /\ w_links (mp_world d) !! j = Some x /\ g x = k.
  Proof.
    intros Hg Hf n Hn. apply in_map_iff' in Hn as ([n' y] & <- & Hin). apply (firsts_sub _ _ _ Hf) in Hin.
    unfold at_end in Hin. apply elem_of_list_filter in Hin as [E Hin]. unfold p in Hin. cbn in Hin.
    apply named_in in Hin as (j & x & Hj & Hx & -> & ->). cbn in E. exists j, x. rewrite Hg in E. eauto.
  Qed.

  Lemma loaded_like : like_analysis m su_name sa_name ln_name rim_of d doms pts p'.
  Proof.
    split.
    - eapply Forall2_transitive; [|eapply (named_forall su_name _ _ (mp_summits d)); apply Hw|exact (rl_summits _ _ Hr)].
      intros a e e' (Hi & E & u & Hu & Eu) (E' & (K1 & K2 & K3 & K4) & (l & Hl & El) & Hd). rewrite Eu in K1, K2, K3, K4. cbn in K1, K2, K3, K4.
      split; [congruence|]. exists u. split; [done|]. split; [by apply spot_placed|]. split; [done|]. split; [done|].
      split; [by apply kept_spread|]. split.
      + intros k. rewrite El. intros Hk. destruct (end_links pl_summit (fun x => su_name (ln_summit x)) _ _ (fun _ => eq_refl) Hl k Hk) as (j & x & -> & Hj & Hx & Ek).
        exists j, x. rewrite E in Ek. apply (proj1 Hsu) in Ek. eauto.
      + rewrite E', E in *. destruct (pu_domain e'.2) as [g|].
        * destruct Hd as (l1 & l2 & E1 & E2 & _). assert (g ∈ pm_domains p) as Hg by (rewrite E1; apply elem_of_app; right; by left).
          unfold p in Hg. cbn in Hg. apply elem_of_list_omap in Hg as (b & Hb & Eb).
          destruct (w_summits (mp_world d) !! b) as [v|] eqn:Ev; [|done]. cbn in Eb. destruct (su_domain v) as [k|] eqn:Ek; [|done].
          injection Eb as <-. cbn in E2. apply (proj1 Hsu) in E2. subst b. assert (v = u) as -> by congruence. split; [done|].
          exists k. split; [done|]. done.
        * destruct (su_domain u) as [k|] eqn:Ek; [|by right]. left. intros Ha.
          apply (Hd (stored_domain su_name sa_name pts a k)); [|done]. unfold p. cbn. apply elem_of_list_omap. exists a.
          split; [done|]. rewrite Hu. cbn. by rewrite Ek.
    - eapply Forall2_transitive; [|eapply (named_forall sa_name _ _ (mp_saddles d)); intros i Hi; apply (proj2 (wh_saddles d Hw)), elem_of_app; by left|exact (rl_saddles _ _ Hr)].
      intros i e e' (Hi & E & o & Ho & Eo) (E' & (K1 & K2 & K3 & K4 & K5 & K6 & K7 & K8) & Hl & F1 & F2 & F3).
      rewrite Eo in K1, K2, K3, K4, K5, K6, K7, K8, F1, F2, F3. cbn in K1, K2, K3, K4, K5, K6, K7, K8, F1, F2, F3. rewrite E in *.
      split; [done|]. exists o. split; [done|]. split; [by apply spot_placed|]. do 2 (split; [done|]).
      split; [by apply kept_spread|]. do 3 (split; [done|]).
      split; [pose proof (me_over m d Hm i o Ho) as Hov; rewrite K8; by destruct (sa_over o) as [[]|]|]. do 3 (split; [done|]). split.
      + intros k. destruct Hl as (l & Hl & El). rewrite El. intros Hk.
        destruct (end_links pl_saddle (fun x => sa_name (ln_saddle x)) _ _ (fun _ => eq_refl) Hl k Hk) as (j & x & -> & Hj & Hx & Ek).
        apply (proj1 Hsa) in Ek. exists j, x. done.
      + intros x. by apply (loaded_summits m su_name sa_name ln_name rim_of Hsu Hsa Hln d doms pts Hm p' Hr i o).
    - eapply Forall2_transitive; [|eapply (named_forall sa_name _ _ (mp_runoffs d)); intros i Hi; apply (proj2 (wh_saddles d Hw)), elem_of_app; by right|exact (rl_runoffs _ _ Hr)].
      intros i e e' (Hi & E & o & Ho & Eo) (E' & (K1 & K2 & K3 & K4 & K5 & K6 & K7 & K8) & _).
      rewrite Eo in K1, K2, K3, K4, K5, K6, K7, K8. cbn in K1, K2, K3, K4, K5, K6, K7, K8. split; [congruence|].
      exists o. split; [done|]. split; [by apply spot_placed|]. split; [done|]. split; [by apply kept_spread|].
      pose proof (me_over m d Hm i o Ho) as Hov. rewrite K8. by destruct (sa_over o) as [[]|].
    - rewrite (rl_linkers _ _ Hr). eapply Forall2_impl; [apply named_forall|].
      + intros k Hk. destruct (proj2 (wh_links d Hw) k Hk) as (l & Hl & _). by rewrite Hl.
      + intros k e (_ & E & l & Hl & El). split; [done|]. exists l. done.
  Qed.
End like.
