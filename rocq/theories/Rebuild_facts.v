(** Consequences and examples for saddle splitting. *)
From Verif Require Import Tree_spec Network_model Raster_spec Closest_spec Feature_spec Network_spec
  Tree_proof Closest_proof Rebuild_proof Example_maps.
From Coq Require Import ZifyBool Reals Qreals.
Local Open Scope nat_scope.

Lemma dominated_total {A B} (f : A -> Q) (g : B -> Q) xs ys :
  dominated (fun a b => (f a <= g b)%Q) xs ys ->
  (foldr Rplus 0 (map (fun a => sqrt (Q2R (f a))) xs) <=
   foldr Rplus 0 (map (fun b => sqrt (Q2R (g b))) ys))%R.
Proof.
  intros (ys' & Hp & Hf).
  assert (Hsum : foldr Rplus 0%R (map (fun b => sqrt (Q2R (g b))) ys) =
    foldr Rplus 0%R (map (fun b => sqrt (Q2R (g b))) ys')).
  { clear -Hp. induction Hp as [|x l l' H IH|x y l|l1 l2 l3 H1 IH1 H2 IH2]; cbn.
    - done.
    - by rewrite IH.
    - ring.
    - by rewrite IH1. }
  rewrite Hsum. clear -Hf. induction Hf as [|a b xs ys Hab Hf IH]; cbn; [apply Rle_refl|].
  apply Rplus_le_compat; [|done]. apply sqrt_le_1_alt. by apply Qle_Rle.
Qed.

Lemma network_total near m hpn T :
  nearest_query near -> 2 <= length hpn -> (forall g, g ∈ hpn -> g <> []) -> in_reach m hpn ->
  (forall g h, g ∈ hpn -> h ∈ hpn -> length g + length h < 100 \/ square_pixels m) ->
  spanning_tree (length hpn) (map fst T) ->
  (forall i j p q, (i, j, (p, q)) ∈ T ->
     exists g h, hpn !! i = Some g /\ hpn !! j = Some h /\ p ∈ g /\ q ∈ h) ->
  exists links, build_internal_tree (exact_searches near) m hpn = Ok links /\
  (foldr Rplus 0 (map (fun l => sqrt (Q2R (vl_d2 l))) links) <=
   foldr Rplus 0 (map (fun t : (nat * nat) * (pte * pte) =>
     sqrt (Q2R (distance2 m (pt_xy t.2.1) (pt_xy t.2.2)))) T))%R.
Proof.
  intros H1 H2 H3 H4 H5 H6 H7.
  destruct (network_minimal near m H1 hpn T H2 H3 H4 H5 H6 H7) as (links & Hb & Hd).
  exists links. split; [done|].
  exact (dominated_total vl_d2 (fun t => distance2 m (pt_xy t.2.1) (pt_xy t.2.2)) links T Hd).
Qed.

(** Checks for the examples. *)
Lemma in_reach_check m hpn :
  forallb (fun p => forallb (fun q => Qlt_bool (distance2 m (pt_xy p) (pt_xy q)) maxsize2) (concat hpn)) (concat hpn) = true ->
  in_reach m hpn.
Proof.
  intros H g h p q Hg Hh Hp Hq. rewrite forallb_forall in H.
  assert (Hc : forall g p, g ∈ hpn -> p ∈ g -> In p (concat hpn)).
  { intros g' p' Hg' Hp'. apply in_concat. exists g'. split; by apply elem_of_list_In. }
  specialize (H p (Hc g p Hg Hp)). rewrite forallb_forall in H.
  specialize (H q (Hc h q Hh Hq)). by apply Qlt_bool_iff.
Qed.
Lemma map_in_reach_check m :
  forallb (fun p => forallb (fun q => Qlt_bool (distance2 m p q) maxsize2) (nditer_cells m)) (nditer_cells m) = true ->
  map_in_reach m.
Proof.
  intros H p q Hp Hq. rewrite forallb_forall in H.
  assert (Hc : forall p, in_map m p -> In p (nditer_cells m)).
  { intros [x y] [Hx Hy]. cbn in *. apply elem_of_list_In. unfold nditer_cells.
    apply elem_of_list_bind. exists x. split; [|apply elem_of_seqZ; lia].
    apply elem_of_list_bind. exists y. split; [by apply elem_of_list_singleton|apply elem_of_seqZ; lia]. }
  specialize (H p (Hc p Hp)). rewrite forallb_forall in H. specialize (H q (Hc q Hq)).
  by apply Qlt_bool_iff.
Qed.

Lemma spanning_check n es : S (length es) = n ->
  forallb (fun e => Nat.ltb e.1 n && Nat.ltb e.2 n) es = true ->
  (forall i, i < n -> joined es 0 i) -> spanning_tree n es.
Proof.
  intros Hl Hr Hj. split_and!; [done| |].
  - intros a b Hab. rewrite forallb_forall in Hr. apply elem_of_list_In, Hr in Hab. apply andb_true_iff in Hab as [H1%Nat.ltb_lt H2%Nat.ltb_lt]. done.
  - intros a b Ha Hb. eapply joined_trans; [apply joined_sym|]; auto.
Qed.

Definition fp_unit (m : datamap) (pts : list xy) (a b : xy) : option Q :=
  Some (if decide (a = b) then 0 else 1)%Q.

(** A flat area that drains over the border between two peaks; the low cell
    between the peaks is not part of it. *)
Definition border_map : datamap :=
  row_map [[1; 1; 1; 1; 1]; [1; 1; 1; 1; 1]; [1; 9; 5; 1; 1]; [1; 1; 1; 5; 5]; [1; 9; 5; 1; 1];
           [1; 1; 1; 1; 1]; [1; 1; 1; 1; 1]]%Z (Some (-99)%Z) unit_gt.
(** A flat area between three peaks. *)
Definition split_map : datamap :=
  row_map [[1; 1; 1; 1; 1]; [1; 9; 5; 7; 1]; [1; 5; 5; 5; 1]; [1; 8; 5; 4; 1]; [1; 1; 1; 1; 1]]%Z
    (Some (-99)%Z) unit_gt.

Lemma fp_unit_ok m : paths_found fp_unit m.
Proof. intros pts a b _. eexists. done. Qed.

Lemma misplaced_saddle :
  exists fp orc near m su sa ru, map_ok m /\ paths_found fp m /\ sound_searches near m /\ map_in_reach m /\
    run_rebuild fp orc near m = Ok (su, sa, ru) /\
    exists pos e h c, New pos e h c ∈ sa /\ (e < elev m pos)%Z.
Proof.
  exists fp_unit, (fun _ _ i => i), search0, border_map. eexists _, _, _.
  split; [by vm_compute|]. split; [apply fp_unit_ok|]. split; [apply search0_ok|].
  split; [apply map_in_reach_check; vm_compute; reflexivity|]. split; [vm_compute; reflexivity|].
  eexists _, _, _, _. split; [by left|by vm_compute].
Qed.

Lemma split_map_case :
  map_ok split_map /\ map_in_reach split_map /\ paths_found fp_unit split_map /\
  exists su ru, run_rebuild fp_unit (fun _ _ i => i) search0 split_map =
    Ok (su, [New (1, 2)%Z 5 [[(1, 1, 9)]; [(1, 3, 7)]]%Z None;
             New (2, 1)%Z 5 [[(3, 1, 8)]; [(1, 1, 9)]]%Z None], ru).
Proof.
  split; [by vm_compute|]. split; [apply map_in_reach_check; vm_compute; reflexivity|].
  split; [apply fp_unit_ok|]. eexists _, _. vm_compute. reflexivity.
Qed.
