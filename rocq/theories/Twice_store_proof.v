(** The result of an analysis that was saved and loaded, saved and loaded again. *)
From Verif Require Import Base_model Graph_model Graph_spec Basin_model Basin_spec Persist_model Persist_spec Persist_proof Persist_load_proof
  Store_model Store_spec Store_proof.
Local Open Scope nat_scope.

Section again.
  Context (m : datamap) (su_name sa_name ln_name : nat -> string) (rim_of : feature -> perimeter * bool * list pte).
  Context (Hsu : naming su_name) (d : dmap) (doms : list nat) (pts : nat -> list pte).
  Context (Hm : meshed m d) (Hnd : NoDup doms).
  Let p := store m su_name sa_name ln_name rim_of d doms pts.

  Lemma stored_domain_in x : x ∈ pm_domains p -> exists a, a ∈ doms /\ pd_summit x = su_name a.
  Proof.
    unfold p. cbn. rewrite elem_of_list_omap. intros (a & Ha & H). exists a. split; [done|].
    destruct (w_summits (mp_world d) !! a) as [u|]; [|done]. cbn in H. destruct (su_domain u); [|done]. by injection H as <-.
  Qed.
  Lemma stored_domains_nodup : NoDup (map pd_summit (pm_domains p)).
  Proof using Hnd Hsu.
    assert (forall l, NoDup l -> NoDup (map pd_summit (omap (fun a => u ← w_summits (mp_world d) !! a; stored_domain su_name sa_name pts a <$> su_domain u) l))) as H; [|by apply H].
    induction 1 as [|a l Ha _ IH]; [constructor|]. cbn. destruct (w_summits (mp_world d) !! a) as [u|]; cbn; [|done].
    destruct (su_domain u) as [g|]; cbn; [|done]. constructor; [|done]. intros (x & E & Hx)%elem_of_list_fmap.
    apply elem_of_list_omap in Hx as (b & Hb & H). destruct (w_summits (mp_world d) !! b) as [v|]; [|done]. cbn in H.
    destruct (su_domain v); [|done]. injection H as <-. cbn in E. apply Hsu in E. by subst.
  Qed.
  Lemma stored_twin x y : domain_twin p x y -> pd_summit x = pd_summit y.
  Proof using Hm Hsu.
    intros ((s1 & s2 & H1 & H2 & Hs) & _). destruct H1 as (u1 & H1 & <-), H2 as (u2 & H2 & <-). unfold p in H1, H2. cbn in H1, H2.
    apply named_in in H1 as (a & v & _ & Ha & E1 & ->). apply named_in in H2 as (b & w & _ & Hb & E2 & ->).
    rewrite E1, E2. f_equal. apply (me_apart m d Hm). unfold summit_same, summit_spot. rewrite Ha, Hb. cbn in *.
    apply spot_eq_same in Hs. rewrite Hs. apply orb_true_r.
  Qed.
  Lemma stored_apart l1 x l2 y l3 : pm_domains p = l1 ++ x :: l2 ++ y :: l3 -> ~ domain_twin p y x.
  Proof using Hm Hsu Hnd.
    intros E Ht%stored_twin. pose proof stored_domains_nodup as H. rewrite E, map_app in H. cbn in H. apply NoDup_app in H as (_ & _ & H).
    apply NoDup_cons in H as [H _]. apply H. rewrite <-Ht. apply elem_of_list_fmap. exists y. split; [done|]. apply elem_of_app. right. by left.
  Qed.
End again.
