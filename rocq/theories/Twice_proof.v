(** Proofs about saving and loading a map that was loaded. *)
From Verif Require Import Persist_model Persist_spec Container_spec Container_proof Persist_proof Persist_load_proof.
Local Open Scope Z_scope.

(** ** Perimeters *)
Lemma put_new {A} k (v : A) d : k ∉ map fst d -> put_at k v d = d ++ [(k, v)].
Proof.
  induction d as [|[k' v'] d IH]; [done|]. cbn. intros [H1 H2]%not_elem_of_cons. rewrite decide_False by done. by rewrite IH.
Qed.
Lemma put_last {A} k (v v0 : A) d : k ∉ map fst d -> put_at k v (d ++ [(k, v0)]) = d ++ [(k, v)].
Proof.
  induction d as [|[k' v'] d IH]; cbn; [by rewrite decide_True|]. intros [H1 H2]%not_elem_of_cons. rewrite decide_False by done. by rewrite IH.
Qed.
Lemma find_last {A} k (v0 : A) d : k ∉ map fst d -> find_at k (d ++ [(k, v0)]) = Some v0.
Proof.
  induction d as [|[k' v'] d IH]; cbn; [by rewrite decide_True|]. intros [H1 H2]%not_elem_of_cons. rewrite decide_False by done. by apply IH.
Qed.
Lemma find_none {A} k (d : list (Z * A)) : k ∉ map fst d -> find_at k d = None.
Proof. induction d as [|[k' v'] d IH]; cbn; [done|]. intros [H1 H2]%not_elem_of_cons. rewrite decide_False by done. by apply IH. Qed.
Lemma rehash_row x r d : x ∉ map fst d -> r <> [] -> NoDup (map fst r) -> (forall y p, (y, p) ∈ r -> pt_xy p = (x, y)) ->
  foldl put_point d (map snd r) = d ++ [(x, r)].
Proof.
  intros Hx Hr Hd Hp. assert (forall r1 r2, r = r1 ++ r2 -> r1 <> [] -> foldl put_point (d ++ [(x, r1)]) (map snd r2) = d ++ [(x, r)]) as H.
  { intros r1 r2. revert r1. induction r2 as [|[y q] r2 IH]; intros r1 E Hne; cbn [map foldl]; [by rewrite E, app_nil_r|].
    assert (pt_xy q = (x, y)) as Hq by (apply (Hp y); rewrite E; apply elem_of_app; right; by left).
    destruct q as [[qx qy] qe]. cbn in Hq. injection Hq as -> ->.
    rewrite <-(IH (r1 ++ [(y, (x, y, qe))])); [|by rewrite <-app_assoc|by destruct r1]. f_equal.
    assert (y ∉ map fst r1) as Hy.
    { rewrite E, map_app in Hd. cbn in Hd. apply NoDup_app in Hd as (_ & Hd & _). intros Hin. apply (Hd y Hin). by left. }
    unfold put_point. change (pt_x (x, y, qe)) with x. change (pt_y (x, y, qe)) with y. cbn [snd]. rewrite find_last by done.
    rewrite put_last by done. cbn [default from_option id]. by rewrite put_new. }
  destruct r as [|[y q] r]; [done|]. cbn [map foldl snd]. rewrite <-(H [(y, q)] r); [|done|done]. f_equal.
  assert (pt_xy q = (x, y)) as Hq by (apply (Hp y); by left). destruct q as [[qx qy] qe]. cbn in Hq. injection Hq as -> ->.
  unfold put_point. change (pt_x (x, y, qe)) with x. change (pt_y (x, y, qe)) with y. rewrite find_none by done. cbn. by apply put_new.
Qed.
Lemma rehash_rows d2 : forall d1, neat (d1 ++ d2) -> foldl put_point d1 (map snd (cells d2)) = d1 ++ d2.
Proof.
  induction d2 as [|[x r] d2 IH]; intros d1 Hn; [by rewrite app_nil_r|].
  change (cells ((x, r) :: d2)) with (map (fun e : Z * pte => ((x, e.1), e.2)) r ++ cells d2).
  rewrite map_app, map_map, foldl_app. change (map (fun e : Z * pte => ((x, e.1), e.2).2) r) with (map snd r).
  destruct Hn as [H1 H2]. rewrite (rehash_row x).
  - rewrite IH; [by rewrite <-app_assoc|]. split; [by rewrite <-app_assoc|]. by rewrite <-app_assoc.
  - rewrite map_app in H1. apply NoDup_app in H1 as (_ & H1 & _). intros Hin. apply (H1 x Hin). by left.
  - apply (H2 x). apply elem_of_app. right. by left.
  - apply (H2 x). apply elem_of_app. right. by left.
  - apply (H2 x). apply elem_of_app. right. by left.
Qed.
Lemma index_points d : per_points (per_of_index d) = map snd (cells d).
Proof.
  destruct d as [|r d']; [done|]. cbn [per_points per_of_index]. unfold cells. rewrite concat_map, map_map. f_equal.
  apply map_ext. intros r'. by rewrite map_map.
Qed.
Lemma per_back_again b : per_back (per_back b) = per_back b.
Proof.
  unfold per_back. cbn [b_per b_edge b_edgepts]. f_equal. f_equal. rewrite index_points.
  apply (rehash_rows _ []). apply hash_spec.
Qed.
Lemma opt_back_again o : opt_back (opt_back o) = opt_back o.
Proof.
  destruct o as [u|]; [|done]. unfold opt_back. destruct (decide (mu_points u = [])) as [E|E]; [done|].
  rewrite decide_False. 2: { unfold multi_back. cbn. intros E'. by apply map_eq_nil in E'. }
  f_equal. unfold multi_back. cbn. rewrite map_map. destruct (mu_per u) as [b|]; [|done]. cbn. by rewrite per_back_again.
Qed.
Lemma saddle_back_again r s : saddle_back r (saddle_back r s) = saddle_back r s.
Proof.
  unfold saddle_back. cbn. rewrite opt_back_again. f_equal; [by destruct r, (pa_edge s)|by destruct (pa_over s) as [[]|]].
Qed.
Lemma back_perimeter o : has_perimeter o -> has_perimeter (opt_back o).
Proof.
  intros H u. unfold opt_back. destruct o as [u0|]; [|done]. destruct (decide (mu_points u0 = [])) as [E|E]; [done|].
  intros [= <-] _. cbn. specialize (H u0 eq_refl E). by destruct (mu_per u0).
Qed.
Lemma back_edge_list o : has_edge_list o -> has_edge_list (opt_back o).
Proof.
  intros H u b. unfold opt_back. destruct o as [u0|]; [|done]. destruct (decide (mu_points u0 = [])) as [E|E]; [done|].
  intros [= <-] _. cbn. destruct (mu_per u0) as [b0|] eqn:E0; [|done]. intros [= <-]. cbn. by apply (H u0 b0).
Qed.

(** ** The map *)
Lemma final_in {A B} (f : string -> A -> B) g l i b : (i, b) ∈ final f g l -> exists a, (i, a) ∈ l /\ (b = f i a \/ b = g a).
Proof.
  induction l as [|[j a] l IH]; cbn; [by intros []%elem_of_nil|]. intros [[= -> ->]|H]%elem_of_cons.
  - exists a. split; [by left|]. destruct (decide _); auto.
  - destruct (IH H) as (c & Hc & Hb). exists c. split; [by right|done].
Qed.
Lemma final_final {A B} (f : string -> A -> B) g (f' : string -> B -> B) g' l :
  (forall i a, f' i (f i a) = f i a) -> (forall a, g' (g a) = g a) -> final f' g' (final f g l) = final f g l.
Proof.
  intros H1 H2. induction l as [|[i a] l IH]; [done|]. cbn. rewrite IH, final_ids. do 2 f_equal. destruct (decide _); [apply H2|apply H1].
Qed.
Section again.
  Variable p : pmap.
  Hypothesis Hids : good_ids p.
  Hypothesis Hsave : can_save p.
  Hypothesis Hread : can_read p.
  Hypothesis Hclosed : closed p.
  Let p1 := state p (pm_linkers p) (pm_domains p).

  Lemma map_in {A B} (f : string -> A -> B) (l : list (string * A)) i b :
    (i, b) ∈ map (fun e => (e.1, f e.1 e.2)) l -> exists a, (i, a) ∈ l /\ b = f i a.
  Proof. intros ([j a] & [= -> ->] & H)%elem_of_list_fmap. by exists a. Qed.

  Lemma again_ids : good_ids p1.
  Proof using Hids.
    split; unfold p1.
    - rewrite state_su_ids. apply Hids.
    - cbn [state pm_saddles]. rewrite (ids_map (fun i s => sa_state p (pm_linkers p) i (saddle_full s))). apply Hids.
    - cbn [state pm_saddles pm_runoffs]. rewrite (ids_map (fun i s => sa_state p (pm_linkers p) i (saddle_full s))), final_ids. apply Hids.
    - cbn [state pm_runoffs]. intros i s t (a & Ha & Hs)%final_in (b & Hb & Ht)%final_in.
      pose proof (gi_runoffs p Hids i a b Ha Hb) as E. destruct Hs as [->| ->], Ht as [->| ->]; exact E.
    - apply Hids.
    - cbn [state pm_saddles]. intros i s (a & Ha & ->)%(map_in (fun i s => sa_state p (pm_linkers p) i (saddle_full s))). cbn.
      pose proof (gi_parent_names p Hids i a Ha). by destruct (pa_parent a).
    - apply Hids.
  Qed.
  Lemma again_save : can_save p1.
  Proof using Hsave.
    destruct Hsave as [S1 S2]. split; unfold p1; cbn [state pm_summits pm_saddles pm_runoffs].
    - intros i u (a & Ha & ->)%(map_in (su_state p (pm_linkers p) (pm_domains p))). by apply back_perimeter, (S1 i).
    - intros i s [(a & Ha & ->)%(map_in (fun i s => sa_state p (pm_linkers p) i (saddle_full s)))|(a & Ha & Hs)%final_in]%elem_of_app.
      + cbn. apply back_perimeter, (S2 i), elem_of_app. by left.
      + assert (has_perimeter (opt_back (pa_multi a))) by (apply back_perimeter, (S2 i), elem_of_app; by right).
        by destruct Hs as [->| ->].
  Qed.
  Lemma again_read : can_read p1.
  Proof using Hread.
    destruct Hread as [S1 S2]. split; unfold p1; cbn [state pm_summits pm_saddles pm_runoffs].
    - intros i u (a & Ha & ->)%(map_in (su_state p (pm_linkers p) (pm_domains p))). by apply back_edge_list, (S1 i).
    - intros i s [(a & Ha & ->)%(map_in (fun i s => sa_state p (pm_linkers p) i (saddle_full s)))|(a & Ha & Hs)%final_in]%elem_of_app.
      + cbn. apply back_edge_list, (S2 i), elem_of_app. by left.
      + assert (has_edge_list (opt_back (pa_multi a))) by (apply back_edge_list, (S2 i), elem_of_app; by right).
        by destruct Hs as [->| ->].
  Qed.
  Lemma first_domains_in D d : d ∈ first_domains p D -> d ∈ D.
  Proof.
    induction D as [|e D IH] using rev_ind; [by intros []%elem_of_nil|]. rewrite first_domains_snoc, elem_of_app.
    destruct (existsb _ _); [auto|]. rewrite elem_of_app. intros [?|?]; auto.
  Qed.
  Lemma again_closed : closed p1.
  Proof using Hclosed.
    destruct Hclosed as [C1 C2 C3]. split; unfold p1.
    - intros i s Hin j Hj.
      assert (map fst (pm_saddles (state p (pm_linkers p) (pm_domains p))) = map fst (pm_saddles p)) as E.
      { exact (ids_map (fun i s => sa_state p (pm_linkers p) i (saddle_full s)) (pm_saddles p)). }
      rewrite E. cbn [state pm_saddles] in Hin. apply (map_in (fun i s => sa_state p (pm_linkers p) i (saddle_full s))) in Hin as (a & Ha & ->).
      apply (C1 i a Ha). cbn in Hj. destruct Hj as [Hj|[Hj|Hj]]; [by left|right; left; by destruct (pa_parent a)|by right; right].
    - intros k l Hin. rewrite state_su_ids, state_sa_ids. by apply (C2 k).
    - intros d Hin%first_domains_in. rewrite state_su_ids, state_sa_ids. by apply C3.
  Qed.

  Lemma first_links_again f i P : first_links p1 f i P = first_links p f i P.
  Proof.
    induction P as [|x P IH] using rev_ind; [done|]. rewrite !first_links_snoc, IH.
    assert (existsb (fun b => linkers_same p1 x.2 b.2) (first_links p f i P) = existsb (fun b => linkers_same p x.2 b.2) (first_links p f i P)) as ->; [|done].
    rewrite <-(map_id (first_links p f i P)) at 1. apply existsb_ext. intros b _. apply state_same.
  Qed.
  Lemma existsb_same_domain x l : existsb (domains_same p1 x) l = existsb (domains_same p x) l.
  Proof. rewrite <-(map_id l) at 1. apply existsb_ext. intros b _. apply state_same_domain. Qed.
  (** What is kept is not merged further. *)
  Lemma first_domains_again D : first_domains p1 (first_domains p D) = first_domains p D.
  Proof.
    induction D as [|x D IH] using rev_ind; [done|]. rewrite first_domains_snoc. destruct (existsb _ _) eqn:E; [done|].
    by rewrite first_domains_snoc, IH, existsb_same_domain, E.
  Qed.

  (** The domain of a summit after a second round: the last of its domains that
      was not merged. *)
  Lemma again_state : state p1 (pm_linkers p1) (pm_domains p1) =
    PMap (map (fun e => (e.1, su_state p (pm_linkers p) (first_domains p (pm_domains p)) e.1 e.2)) (pm_summits p))
      (pm_saddles p1) (pm_runoffs p1) (pm_linkers p1) (pm_domains p1).
  Proof using Hids.
    unfold p1 at 2 3 4 5 6 7. unfold state. cbn [pm_linkers pm_domains pm_summits pm_saddles pm_runoffs]. f_equal.
    - unfold p1 at 2. cbn [state pm_summits]. rewrite map_map. apply map_ext. intros [i u]. cbn [fst snd]. f_equal.
      unfold su_state. cbn. by rewrite first_links_again, opt_back_again.
    - unfold p1 at 2. cbn [state pm_saddles]. rewrite map_map. apply map_ext. intros [i s]. cbn [fst snd]. f_equal.
      unfold sa_state, saddle_full, with_family. cbn. rewrite first_links_again, opt_back_again. f_equal; [by destruct (pa_parent s)|by destruct (pa_over s) as [[]|]].
    - unfold p1 at 2. cbn [state pm_runoffs]. apply final_final.
      + intros i s. unfold sa_state. cbn. rewrite first_links_again, opt_back_again. f_equal. by destruct (pa_over s) as [[]|].
      + intros s. apply saddle_back_again.
    - apply first_domains_again.
  Qed.
  Lemma again_same : first_domains p (pm_domains p) = pm_domains p -> state p1 (pm_linkers p1) (pm_domains p1) = p1.
  Proof using Hids. intros E. rewrite again_state, E. reflexivity. Qed.
End again.

Section again2.
  Variables (newid md5 : string) (p : pmap) (d : val) (p1 : pmap).
  Hypothesis Hids : good_ids p.
  Hypothesis Hd : map_to_dict md5 p = Ok d.
  Hypothesis Hp : map_from_dict newid md5 d = Ok p1.

  Lemma loads_again newid2 md52 : exists d' p2, map_to_dict md52 p1 = Ok d' /\ map_from_dict newid2 md52 d' = Ok p2 /\
    pm_saddles p2 = pm_saddles p1 /\ pm_runoffs p2 = pm_runoffs p1 /\ pm_linkers p2 = pm_linkers p1 /\ pm_domains p2 = pm_domains p1 /\
    Forall2 (fun e e' => e'.1 = e.1 /\ pu_at e'.2 = pu_at e.2 /\ pu_edge e'.2 = pu_edge e.2 /\ pu_edgepts e'.2 = pu_edgepts e.2 /\
      pu_multi e'.2 = pu_multi e.2 /\ pu_links e'.2 = pu_links e.2) (pm_summits p1) (pm_summits p2).
  Proof using Hids Hd Hp.
    pose proof (saved p md5 d Hd) as Hs. apply (load_iff p md5 newid d Hids Hd) in Hp as (Hc & Hr & ->).
    destruct (proj2 (save_ok md52 _) (again_save p Hs)) as [d' Hd']. exists d'. eexists. split; [exact Hd'|]. split.
    - apply (load_iff _ md52 newid2 d' (again_ids p Hids) Hd'). split; [by apply again_closed|]. split; [by apply again_read|reflexivity].
    - rewrite (again_state p Hids). do 4 (split; [done|]). cbn [pm_summits state]. apply Forall2_fmap, Forall_Forall2_diag, Forall_forall.
      intros [i u] _. done.
  Qed.
  (** Nothing changes if no domain was merged. *)
  Lemma same_again newid2 md52 : pm_domains p1 = pm_domains p ->
    exists d', map_to_dict md52 p1 = Ok d' /\ map_from_dict newid2 md52 d' = Ok p1.
  Proof using Hids Hd Hp.
    pose proof (saved p md5 d Hd) as Hs. apply (load_iff p md5 newid d Hids Hd) in Hp as (Hc & Hr & ->). intros E.
    destruct (proj2 (save_ok md52 _) (again_save p Hs)) as [d' Hd']. exists d'. split; [exact Hd'|].
    apply (load_iff _ md52 newid2 d' (again_ids p Hids) Hd'). split; [by apply again_closed|]. split; [by apply again_read|].
    symmetry. by apply again_same.
  Qed.
End again2.
