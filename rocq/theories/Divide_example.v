(** Examples for the divide tree. *)
From Verif Require Import Base_model Graph_model Divide_model Divide_spec Basin_model Graph_example Basin_example Example_maps.
Local Open Scope Z_scope.

(** ** Computable versions of the vocabulary *)

Definition own_links_b (w : world) : bool :=
  forallb (fun a => match w_summits w !! a with
                    | Some s => forallb (fun k => match w_links w !! k with Some l => Nat.eqb (ln_summit l) a | None => false end) (su_links s)
                    | None => true end) (seq 0 (length (w_summits w))) &&
  forallb (fun i => match w_saddles w !! i with
                    | Some s => forallb (fun k => match w_links w !! k with Some l => Nat.eqb (ln_saddle l) i | None => false end) (sa_links s)
                    | None => true end) (seq 0 (length (w_saddles w))).
Lemma own_links_b_sound w : own_links_b w = true -> own_links w.
Proof.
  unfold own_links_b. rewrite andb_true_iff, !forallb_forall. intros [H1 H2]. split.
  - intros a s k Ha Hk. assert (In a (seq 0 (length (w_summits w)))) as Hin.
    { apply in_seq. apply lookup_lt_Some in Ha. lia. }
    specialize (H1 a Hin). rewrite Ha, forallb_forall in H1. apply elem_of_list_In in Hk. specialize (H1 k Hk).
    destruct (w_links w !! k) as [l|]; [|done]. exists l. split; [done|]. by apply Nat.eqb_eq.
  - intros a s k Ha Hk. assert (In a (seq 0 (length (w_saddles w)))) as Hin.
    { apply in_seq. apply lookup_lt_Some in Ha. lia. }
    specialize (H2 a Hin). rewrite Ha, forallb_forall in H2. apply elem_of_list_In in Hk. specialize (H2 k Hk).
    destruct (w_links w !! k) as [l|]; [|done]. exists l. split; [done|]. by apply Nat.eqb_eq.
Qed.

(** ** Graphs *)

(** Four summits: 0 (height 9) - saddle 0 - 1 (7) - saddle 1 - 2 (12), and 1 -
    saddle 2 - 3 (5). *)
Definition g_tree : world := mk_graph [(0,0);(1,0);(1,1);(2,1);(1,2);(3,2)]%nat [3;4;2] [] [9;7;12;5].
(** The same with summit 3 on the border. *)
Definition g_rim : world := upd_summit 3 (fun u => Summit (Feat KSummit (3, 5) 5 [] true [] []) (su_links u) None) g_tree.
Definition no_tree : tree := Tree [] (fun _ => []) (fun _ => []).

(** A ladder of [S n] summits, each lower than the one before: summit [i] and
    summit [S i] are joined by saddle [i]. *)
Definition rung (i : nat) : list link := [Link i i false; Link (S i) i false].
Definition g_ladder (n : nat) : world :=
  World (map (fun i => Saddle (at_ KSaddle (Z.of_nat i, 3) 0) [(2 * i)%nat; S (2 * i)] None [] false false [] None) (seq 0 n))
        (map (fun i => Summit (at_ KSummit (Z.of_nat i, 5) (1000 - Z.of_nat i))
                (match i with O => [] | S h => [S (2 * h)] end ++ if Nat.ltb i n then [(2 * i)%nat] else []) None) (seq 0 (S n)))
        (concat (map rung (seq 0 n))).

Section ladder.
  Variable n : nat.
  Lemma rungs a m i : (i < m)%nat -> concat (map rung (seq a m)) !! (2 * i)%nat = Some (Link (a + i) (a + i) false) /\
    concat (map rung (seq a m)) !! S (2 * i) = Some (Link (S (a + i)) (a + i) false).
  Proof.
    revert a i. induction m as [|m IH]; intros a i Hi; [lia|]. cbn [seq map concat]. destruct i as [|i].
    - rewrite Nat.add_0_r. done.
    - replace (2 * S i)%nat with (S (S (2 * i))) by lia. cbn [rung app lookup list_lookup].
      destruct (IH (S a) i ltac:(lia)) as [H1 H2]. replace (a + S i)%nat with (S a + i)%nat by lia. done.
  Qed.
  Lemma rung_in k l : w_links (g_ladder n) !! k = Some l -> (ln_summit l = ln_saddle l \/ ln_summit l = S (ln_saddle l)) /\ ln_disq l = false.
  Proof.
    intros H. apply elem_of_list_lookup_2, elem_of_list_In, in_concat in H as (r & Hr & Hl). apply in_map_iff in Hr as (i & <- & _).
    destruct Hl as [<-|[<-|[]]]; cbn; auto.
  Qed.
  Lemma ladder_links i : (i < n)%nat -> w_links (g_ladder n) !! (2 * i)%nat = Some (Link i i false) /\
    w_links (g_ladder n) !! S (2 * i) = Some (Link (S i) i false).
  Proof. exact (rungs 0 n i). Qed.
  Lemma ladder_summit i su : w_summits (g_ladder n) !! i = Some su -> (i <= n)%nat /\
    su_links su = match i with O => [] | S h => [S (2 * h)] end ++ (if Nat.ltb i n then [(2 * i)%nat] else []) /\
    ft_ele (su_feat su) = 1000 - Z.of_nat i /\ ft_edge (su_feat su) = false.
  Proof.
    cbn [g_ladder w_summits]. rewrite list_lookup_fmap. intros H. apply fmap_Some in H as (x & Hx & ->). apply lookup_seq in Hx as [-> Hx].
    cbn. repeat split; lia.
  Qed.
  Lemma ladder_summit_ex i : (i <= n)%nat -> exists su, w_summits (g_ladder n) !! i = Some su.
  Proof. intros H. apply lookup_lt_is_Some. cbn [g_ladder w_summits]. rewrite map_length, seq_length. lia. Qed.
  Lemma ladder_saddle i sa : w_saddles (g_ladder n) !! i = Some sa -> (i < n)%nat /\ sa_links sa = [(2 * i)%nat; S (2 * i)] /\
    disqualified sa = false /\ ft_edge (sa_feat sa) = false.
  Proof.
    cbn [g_ladder w_saddles]. rewrite list_lookup_fmap. intros H. apply fmap_Some in H as (x & Hx & ->). apply lookup_seq in Hx as [-> Hx].
    cbn. repeat split; lia.
  Qed.
  Lemma ladder_saddle_ex i : (i < n)%nat -> exists sa, w_saddles (g_ladder n) !! i = Some sa.
  Proof. intros H. apply lookup_lt_is_Some. cbn [g_ladder w_saddles]. rewrite map_length, seq_length. lia. Qed.
  Lemma ladder_own : own_links (g_ladder n).
  Proof.
    split.
    - intros a s k Ha Hk. apply ladder_summit in Ha as (Ha & E & _). rewrite E in Hk. apply elem_of_app in Hk as [Hk|Hk].
      + destruct a as [|h]; [by apply elem_of_nil in Hk|]. apply elem_of_list_singleton in Hk as ->.
        exists (Link (S h) h false). split; [|done]. apply ladder_links. lia.
      + destruct (Nat.ltb_spec a n); [|by apply elem_of_nil in Hk]. apply elem_of_list_singleton in Hk as ->.
        exists (Link a a false). split; [|done]. by apply ladder_links.
    - intros a s k Ha Hk. apply ladder_saddle in Ha as (Ha & E & _). rewrite E in Hk. destruct (ladder_links a Ha) as [H1 H2].
      apply elem_of_cons in Hk as [->|Hk]; [by exists (Link a a false)|]. apply elem_of_list_singleton in Hk as ->. by exists (Link (S a) a false).
  Qed.
  Lemma ladder_at i : (i < n)%nat -> at_summit (g_ladder n) i (2 * i) /\ joins (g_ladder n) (2 * i) i i.
  Proof.
    intros Hi. split.
    - destruct (ladder_summit_ex i ltac:(lia)) as [su E]. exists su. split; [done|]. apply ladder_summit in E as (_ & -> & _).
      apply elem_of_app. right. destruct (Nat.ltb_spec i n); [by left|lia].
    - exists (Link i i false). split; [by apply ladder_links|done].
  Qed.
  Lemma ladder_hop i : (i < n)%nat -> hop (g_ladder n) i (2 * i) i (S (2 * i)) (S i).
  Proof.
    intros Hi. destruct (ladder_at i Hi) as [H1 H2]. destruct (ladder_saddle_ex i Hi) as [sa Es].
    destruct (ladder_saddle i sa Es) as (_ & El & Ed & Eb). destruct (ladder_summit_ex (S i) ltac:(lia)) as [su Eu].
    destruct (ladder_summit_ex i ltac:(lia)) as [su' Eu']. destruct (ladder_summit _ _ Eu) as (_ & _ & Ee & Eg).
    destruct (ladder_summit _ _ Eu') as (_ & _ & Ee' & Eg').
    split; [done|]. split; [done|]. split; [by exists sa|]. split; [exists sa; split; [done|rewrite El; right; by left]|].
    split; [lia|]. split; [exists (Link (S i) i false); split; [by apply ladder_links|done]|]. split; [by exists su|].
    exists (1000 - Z.of_nat (S i)), (1000 - Z.of_nat i). split; [by exists su|]. split; [by exists su'|lia].
  Qed.
  Lemma ladder_leads i : (i <= n)%nat -> exists p, leads (g_ladder n) 0 p i.
  Proof.
    induction i as [|i IH]; intros Hi; [exists []; constructor|]. destruct (IH ltac:(lia)) as [p Hp].
    exists (p ++ [(2 * i)%nat; S (2 * i)]). apply (leads_step _ _ _ i _ i); [done|]. by apply ladder_hop.
  Qed.
  Lemma ladder_reach i : (i < n)%nat -> reach (g_ladder n) 0 (2 * i).
  Proof. intros Hi. destruct (ladder_leads i ltac:(lia)) as [p Hp]. exists p, i, i. by destruct (ladder_at i Hi). Qed.
  Lemma ladder_far p b : leads (g_ladder n) 0 p b -> (2 * b <= length p)%nat.
  Proof.
    induction 1 as [|p b k s j c Hl IH Hh]; [cbn; lia|].
    destruct Hh as (_ & (l & El & Esu & Esa & _) & _ & _ & _ & (r & Er & Esu' & Esa' & _) & _).
    apply rung_in in El, Er. rewrite app_length. cbn [length]. lia.
  Qed.
  Lemma ladder_not i : (i < n)%nat -> ~ reach_within (g_ladder n) i 0 (2 * i).
  Proof.
    intros Hi (p & b & s & Hlt & Hl & _ & (l & El & Eb & _)). apply ladder_far in Hl.
    rewrite (proj1 (ladder_links i Hi)) in El. injection El as <-. cbn in Eb. lia.
  Qed.
End ladder.
