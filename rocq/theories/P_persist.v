(** Properties C34, C35, C36 and C68: saving and loading. *)
From Verif Require Import Persist_model Persist_spec Persist_proof Persist_load_proof Written_proof Twice_proof Persist_example Container_model Container_proof.
Local Open Scope Z_scope.
Local Open Scope string_scope.

(** ** C34 *)

(** C34.  A map can be saved exactly if each flat area with points has a
    perimeter. *)
Theorem C34_save md5 p : (exists d, map_to_dict md5 p = Ok d) <-> can_save p.
Proof. exact (save_ok md5 p). Qed.
Print Assumptions C34_save.

(** C34.  A saved map can be loaded with the same fingerprint exactly if all
    references of links, domains and saddles lead into the saved containers
    (those of saddles to the container of saddles) and the perimeters have
    lists of edge points. *)
Theorem C34_load newid md5 p d : good_ids p -> map_to_dict md5 p = Ok d ->
  (exists p', map_from_dict newid md5 d = Ok p') <-> closed p /\ can_read p.
Proof.
  intros Hi Hd. split.
  - intros [p' H]. by apply (load_iff p md5 newid d Hi Hd) in H as (? & ? & _).
  - intros [H1 H2]. eexists. by apply (load_iff p md5 newid d Hi Hd).
Qed.
Print Assumptions C34_load.

(** C34.  What the loaded map is: the same objects with the same ids,
    positions, elevations and flags, in the same order; the relations of the
    saddles; the links without those equal to an earlier one at the same object. *)
Theorem C34_round_trip newid md5 p d p' : good_ids p -> map_to_dict md5 p = Ok d -> map_from_dict newid md5 d = Ok p' -> reloaded p p'.
Proof.
  intros Hi Hd H. pose proof (saved p md5 d Hd) as Hs. apply (load_iff p md5 newid d Hi Hd) in H as (Hc & _ & ->). by apply state_reloaded.
Qed.
Print Assumptions C34_round_trip.

(** C34.  If no two links have equal ends, no link is lost: every object gets
    all its links, in the order of the list of links.  Of a runoff that is
    listed several times only the last copy has them. *)
Theorem C34_links newid md5 p d p' : good_ids p -> map_to_dict md5 p = Ok d -> map_from_dict newid md5 d = Ok p' ->
  (forall l1 k l2 k' l3, pm_linkers p = (l1 ++ k :: l2 ++ k' :: l3)%list -> ~ twin p k'.2 k.2) ->
  Forall2 (fun e e' => e'.1 = e.1 /\ pu_links e'.2 = map fst (at_end pl_summit p e.1)) (pm_summits p) (pm_summits p') /\
  Forall2 (fun e e' => e'.1 = e.1 /\ pa_links e'.2 = map fst (at_end pl_saddle p e.1)) (pm_saddles p) (pm_saddles p') /\
  forall l1 e l2, pm_runoffs p' = (l1 ++ e :: l2)%list ->
    pa_links e.2 = if decide (e.1 ∈ map fst l2) then [] else map fst (at_end pl_saddle p e.1).
Proof. intros Hi Hd H Hn. exact (links_kept p p' Hn (C34_round_trip newid md5 p d p' Hi Hd H)). Qed.
Print Assumptions C34_links.

Example C34_case : good_ids p_map /\ exists d p', map_to_dict "f" p_map = Ok d /\ map_from_dict "new" "f" d = Ok p' /\
  (map (fun e => pu_links e.2) (pm_summits p') = [["k1"; "k3"]; ["k2"]] /\ map (fun e => pa_links e.2) (pm_saddles p') = [["k1"; "k2"]; []]) /\
  map fst (pm_saddles p') = ["s"; "t"] /\ map (fun e => pa_over e.2) (pm_saddles p') = [None; Some true] /\
  map (fun e => pa_children e.2) (pm_saddles p') = [["t"]; []] /\
  map (fun e => (pa_parent e.2, pa_children e.2, pa_alts e.2)) (pm_runoffs p') = [(None, [], [])].
Proof.
  destruct (trip_case p_map test_map case_map) as (H & d & p' & H1 & H2 & H3). split; [exact H|]. exists d, p'. split; [exact H1|]. split; [exact H2|].
  exact (proj1 (test_map_iff p') H3).
Qed.

(** C34.  The saved form names the links of each summit, and the links and
    children of each saddle and runoff. *)
Theorem C34_written md5 p d : map_to_dict md5 p = Ok d ->
  exists s1 s2 s3 v1 v2 v3, dget d "summits" = Ok s1 /\ dget s1 "summits" = Ok (VSeq v1) /\
    dget d "saddles" = Ok s2 /\ dget s2 "saddles" = Ok (VSeq v2) /\ dget d "runoffs" = Ok s3 /\ dget s3 "runoffs" = Ok (VSeq v3) /\
    Forall2 (fun e v => dget v "id" = Ok (VStr e.1) /\ names_in v "saddles" (pu_links e.2)) (pm_summits p) v1 /\
    Forall2 (fun e v => dget v "id" = Ok (VStr e.1) /\ names_in v "summits" (pa_links e.2) /\ names_in v "children" (pa_children e.2))
      (pm_saddles p ++ pm_runoffs p) (v2 ++ v3).
Proof. exact (map_written md5 p d). Qed.
Print Assumptions C34_written.

(** C34.  Without that, links are lost: a saddle with two links to its only
    summit has one after loading, at both ends. *)
Theorem C34_double_refuted : exists p d p', good_ids p /\ map_to_dict "f" p = Ok d /\ map_from_dict "new" "f" d = Ok p' /\
  map (fun e => pa_links e.2) (pm_saddles p) = [["k1"; "k2"]] /\ map (fun e => pa_links e.2) (pm_saddles p') = [["k1"]] /\
  map (fun e => pu_links e.2) (pm_summits p) = [["k1"; "k2"]] /\ map (fun e => pu_links e.2) (pm_summits p') = [["k1"]].
Proof.
  destruct (trip_case p_double test_double case_double) as (H & d & p' & H1 & H2 & H3). exists p_double, d, p'. split; [exact H|]. split; [exact H1|]. split; [exact H2|].
  apply links_are_iff in H3 as [E1 E2]. split; [exact eq_refl|]. split; [exact E2|]. split; [exact eq_refl|exact E1].
Qed.
Print Assumptions C34_double_refuted.
(** C34.  Saddles at the same position: the summit loses the link to one of
    them, which still has it. *)
Theorem C34_colocated_refuted : exists p d p', good_ids p /\ map_to_dict "f" p = Ok d /\ map_from_dict "new" "f" d = Ok p' /\
  map (fun e => pu_links e.2) (pm_summits p) = [["k1"; "k2"]] /\ map (fun e => pu_links e.2) (pm_summits p') = [["k1"]] /\
  map (fun e => pa_links e.2) (pm_saddles p') = [["k1"]; ["k2"]].
Proof.
  destruct (trip_case p_colocated test_colocated case_colocated) as (H & d & p' & H1 & H2 & H3). exists p_colocated, d, p'. split; [exact H|]. split; [exact H1|]. split; [exact H2|].
  apply links_are_iff in H3 as [E1 E2]. split; [exact eq_refl|]. split; [exact E1|exact E2].
Qed.
Print Assumptions C34_colocated_refuted.
(** C34.  A basin saddle that was kept by hand is disqualified again after loading. *)
Theorem C34_override_refuted : exists p d p', good_ids p /\ map_to_dict "f" p = Ok d /\ map_from_dict "new" "f" d = Ok p' /\
  map (fun e => pa_over e.2) (pm_saddles p) = [Some false] /\ map (fun e => pa_over e.2) (pm_saddles p') = [None] /\
  map (fun e => pa_basin e.2) (pm_saddles p') = [true].
Proof.
  destruct (trip_case p_override test_override case_override) as (H & d & p' & H1 & H2 & H3). exists p_override, d, p'. split; [exact H|]. split; [exact H1|]. split; [exact H2|].
  apply test_override_iff in H3 as [E1 E2]. split; [exact eq_refl|]. split; [exact E1|exact E2].
Qed.
Print Assumptions C34_override_refuted.
(** C34.  Runoffs lose their relations. *)
Theorem C34_runoff_refuted : exists p d p', good_ids p /\ map_to_dict "f" p = Ok d /\ map_from_dict "new" "f" d = Ok p' /\
  map (fun e => (pa_parent e.2, pa_children e.2, pa_alts e.2)) (pm_runoffs p) = [(Some "r", ["r"], ["r"])] /\
  map (fun e => (pa_parent e.2, pa_children e.2, pa_alts e.2)) (pm_runoffs p') = [(None, [], [])].
Proof.
  destruct (trip_case p_map test_map case_map) as (H & d & p' & H1 & H2 & H3). exists p_map, d, p'. split; [exact H|]. split; [exact H1|]. split; [exact H2|].
  split; [exact eq_refl|]. apply (test_map_iff p') in H3 as (_ & _ & _ & _ & E). exact E.
Qed.
Print Assumptions C34_runoff_refuted.
(** C34.  A runoff that is listed twice becomes two objects, and only one of
    them has the links. *)
Theorem C34_copies_refuted : exists p d p', good_ids p /\ map_to_dict "f" p = Ok d /\ map_from_dict "new" "f" d = Ok p' /\
  map fst (pm_runoffs p) = ["r"; "r"] /\ map (fun e => pa_links e.2) (pm_runoffs p) = [["k1"]; ["k1"]] /\
  map fst (pm_runoffs p') = ["r"; "r"] /\ map (fun e => pa_links e.2) (pm_runoffs p') = [[]; ["k1"]].
Proof.
  destruct (trip_case p_copies test_copies case_copies) as (H & d & p' & H1 & H2 & H3). exists p_copies, d, p'. split; [exact H|]. split; [exact H1|].
  split; [exact H2|]. split; [exact eq_refl|]. split; [exact eq_refl|]. exact (proj1 (test_copies_iff p') H3).
Qed.
Print Assumptions C34_copies_refuted.
(** C34.  A saved map need not load: a child outside of the containers. *)
Theorem C34_orphan_refuted : exists p d, good_ids p /\ map_to_dict "f" p = Ok d /\ map_from_dict "new" "f" d = Err KeyError.
Proof.
  destruct (fails_case _ _ _ _ case_orphan) as (H & d & H1 & H2). exists p_orphan, d. split; [exact H|]. split; [exact H1|exact H2].
Qed.
Print Assumptions C34_orphan_refuted.

(** ** C35 *)

(** C35.  A map saved with one fingerprint is rejected with any other, and
    only then for this reason. *)
Theorem C35_guard newid md5 md5' p d : good_ids p -> map_to_dict md5 p = Ok d ->
  map_from_dict newid md5' d = Err OtherError <-> md5' <> md5.
Proof. intros Hi Hd. exact (load_guard newid md5 md5' p d Hi Hd). Qed.
Print Assumptions C35_guard.

(** C35.  The fingerprint of the same file and raster in another process is the
    same exactly if the hashes of the printed raster agree. *)
Theorem C35_seed str_hash newid seed seed' file printed p d : good_ids p ->
  map_to_dict (md5_of str_hash seed file printed) p = Ok d ->
  map_from_dict newid (md5_of str_hash seed' file printed) d = Err OtherError <-> str_hash seed printed <> str_hash seed' printed.
Proof.
  intros Hi Hd. rewrite (C35_guard newid _ _ p d Hi Hd). rewrite (md5_same_file str_hash seed' seed file printed). split; congruence.
Qed.
Print Assumptions C35_seed.

(** C35.  Checksums of files have the same number of characters: then equal
    fingerprints mean equal checksums and equal hashes. *)
Theorem C35_parts h h' seed seed' file file' printed printed' : String.length file = String.length file' ->
  md5_of h seed file printed = md5_of h' seed' file' printed' <-> file = file' /\ h seed printed = h' seed' printed'.
Proof. exact (md5_parts h h' seed seed' file file' printed printed'). Qed.
Print Assumptions C35_parts.

(** C35.  A file can be rejected in another process although the raster is the
    same. *)
Theorem C35_process_refuted : exists str_hash seed seed' p d, good_ids p /\ map_to_dict (md5_of str_hash seed "0a" "[1]") p = Ok d /\
  (exists p', map_from_dict "new" (md5_of str_hash seed "0a" "[1]") d = Ok p') /\
  map_from_dict "new" (md5_of str_hash seed' "0a" "[1]") d = Err OtherError.
Proof.
  destruct (fails_case _ _ _ _ case_process) as (H & d & H1 & H2). exists seed_hash, 0%nat, 1%nat, p_double, d.
  split; [exact H|]. split; [exact H1|]. split; [|exact H2]. apply (C34_load "new" _ p_double d H H1). exact double_good.
Qed.
Print Assumptions C35_process_refuted.

(** ** C36 *)

Theorem C36_gridpoints p q : bgp_from_dict (bgp_to_dict p) = Ok p /\ gp_from_dict (gp_to_dict q) = Ok q.
Proof. split; [exact (bgp_back p)|exact (gp_back q)]. Qed.
Print Assumptions C36_gridpoints.

(** C36.  A plain spot elevation never loads. *)
Theorem C36_spot s : spot_from_dict (spot_to_dict s) = Err KeyError.
Proof. exact (spot_never s). Qed.
Print Assumptions C36_spot.

(** C36.  A perimeter with a list of edge points loads: of the points at one
    place only the last is kept, flag and edge points are kept.  Without the
    list it does not load. *)
Theorem C36_perimeter b :
  (b_edgepts b <> None -> exists b', per_from_dict (per_to_dict b) = Ok b' /\ kept_bounds b b') /\
  (b_edgepts b = None -> per_from_dict (per_to_dict b) = Err TypeError).
Proof.
  rewrite per_back_read. split; intros H.
  - destruct (b_edgepts b); [|done]. exists (per_back b). split; [done|]. apply per_back_kept.
  - by rewrite H.
Qed.
Print Assumptions C36_perimeter.
(** C36.  If the points are at distinct places they are all kept (not always in
    order), and the perimeter is equal to the original. *)
Theorem C36_perimeter_points b b' : per_from_dict (per_to_dict b) = Ok b' -> NoDup (map pt_xy (per_points (b_per b))) ->
  per_points (b_per b') ≡ₚ per_points (b_per b) /\ perimeter_eq (per_points (b_per b')) (per_points (b_per b)) = true.
Proof.
  rewrite per_back_read. destruct (b_edgepts b) eqn:E; [|done]. intros [= <-] Hd.
  pose proof (kept_perm _ _ (per_back_kept b) Hd) as Hp. split; [exact Hp|]. by apply perimeter_eq_perm.
Qed.
Print Assumptions C36_perimeter_points.

(** C36.  A flat area saves exactly if it has a perimeter; its points are written
    with all their numbers; it loads with the places of its points in order, its elevation and its perimeter. *)
Theorem C36_multipoint u :
  (mu_per u = None -> multi_to_dict u = Err AttributeError) /\
  (forall b, mu_per u = Some b -> exists d, multi_to_dict u = Ok d /\
    (exists vs, dget d "points" = Ok (VSeq vs) /\ Forall2 (fun q v => v = VSeq (map VInt ([q.1.1; q.1.2] ++ (match q.2 with Some e => [e] | None => [] end)))) (mu_points u) vs) /\
    (b_edgepts b = None -> multi_from_dict d = Err TypeError) /\
    (b_edgepts b <> None -> exists b', kept_bounds b b' /\
       multi_from_dict d = Ok (Multi (map (fun q => (q.1, None)) (mu_points u)) (mu_ele u) (Some b')))).
Proof.
  destruct (multi_trip u) as [H1 H2]. split; [exact H1|]. intros b Hb. destruct (H2 b Hb) as (d & Hd & H3). exists d. split; [exact Hd|].
  split; [|exact H3]. unfold multi_to_dict in Hd. rewrite Hb in Hd. injection Hd as <-. eexists. split; [reflexivity|].
  clear. induction (mu_points u) as [|[q [e|]] l IH]; constructor; done.
Qed.
Print Assumptions C36_multipoint.

Example C36_case : exists d, multi_to_dict flat = Ok d /\ exists b', multi_from_dict d = Ok (Multi [((4, 5), None); ((4, 6), None)] 7 (Some b')) /\
  per_points (b_per b') = [(3, 5, 8); (3, 6, 9); (5, 6, 3)] /\ b_edge b' = true /\ b_edgepts b' = Some [(3, 6, 9)].
Proof. eexists. split; [by vm_compute|]. eexists. split; [by vm_compute|]. done. Qed.

(** ** C68 *)

(** C68.  A map that was loaded can be saved and loaded again, with any
    fingerprint; the lists of saddles, runoffs, links and domains are then the
    same, and the summits are the same except for their domains. *)
Theorem C68_again newid md5 newid' md5' p d p1 : good_ids p -> map_to_dict md5 p = Ok d -> map_from_dict newid md5 d = Ok p1 ->
  exists d' p2, map_to_dict md5' p1 = Ok d' /\ map_from_dict newid' md5' d' = Ok p2 /\
    pm_saddles p2 = pm_saddles p1 /\ pm_runoffs p2 = pm_runoffs p1 /\ pm_linkers p2 = pm_linkers p1 /\ pm_domains p2 = pm_domains p1 /\
    Forall2 (fun e e' => e'.1 = e.1 /\ pu_at e'.2 = pu_at e.2 /\ pu_edge e'.2 = pu_edge e.2 /\ pu_edgepts e'.2 = pu_edgepts e.2 /\
      pu_multi e'.2 = pu_multi e.2 /\ pu_links e'.2 = pu_links e.2) (pm_summits p1) (pm_summits p2).
Proof. intros Hi Hd Hp. exact (loads_again newid md5 p d p1 Hi Hd Hp newid' md5'). Qed.
Print Assumptions C68_again.

(** C68.  If no two domains of the first map count as one, the second round
    changes nothing at all. *)
Theorem C68_same newid md5 newid' md5' p d p1 : good_ids p -> map_to_dict md5 p = Ok d -> map_from_dict newid md5 d = Ok p1 ->
  (forall l1 x l2 y l3, pm_domains p = (l1 ++ x :: l2 ++ y :: l3)%list -> ~ domain_twin p y x) ->
  exists d', map_to_dict md5' p1 = Ok d' /\ map_from_dict newid' md5' d' = Ok p1.
Proof.
  intros Hi Hd Hp Hn. apply (same_again newid md5 p d p1 Hi Hd Hp newid' md5').
  exact (firsts_all _ _ _ (rl_domains _ _ (C34_round_trip newid md5 p d p1 Hi Hd Hp)) Hn).
Qed.
Print Assumptions C68_same.

(** The first round changes this map, as C34_case shows. *)
Example C68_case : good_ids p_map /\ exists d p1, map_to_dict "f" p_map = Ok d /\ map_from_dict "new" "f" d = Ok p1 /\ p1 <> p_map /\
  (forall l1 x l2 y l3, pm_domains p_map = (l1 ++ x :: l2 ++ y :: l3)%list -> ~ domain_twin p_map y x).
Proof.
  destruct (trip_case p_map test_map case_map) as (H & d & p' & H1 & H2 & H3). split; [exact H|]. exists d, p'. split; [exact H1|]. split; [exact H2|]. split.
  - intros ->. apply test_map_iff in H3 as (_ & _ & _ & _ & E). discriminate E.
  - intros [|? [|? l1]] x [|? l2] y l3; discriminate.
Qed.

(** C68, refuted in general: if two domains of a summit count as one, the summit
    has the last of them after the first round and the first after the second. *)
Theorem C68_merged_refuted : exists p d p1 d' p2, good_ids p /\ map_to_dict "f" p = Ok d /\ map_from_dict "new" "f" d = Ok p1 /\
  map_to_dict "f" p1 = Ok d' /\ map_from_dict "new" "f" d' = Ok p2 /\
  map (fun e => pd_points <$> pu_domain e.2) (pm_summits p1) = [Some [(4, 5, 6); (1, 2, 3)]] /\
  map (fun e => pd_points <$> pu_domain e.2) (pm_summits p2) = [Some [(1, 2, 3); (4, 5, 6)]].
Proof.
  destruct (trip_case p_merged test_merged case_merged) as (H & d & p1 & H1 & H2 & H3). unfold test_merged in H3.
  apply andb_true_iff in H3 as [E1%bool_decide_eq_true H3]. destruct (trip p1) as [p2|] eqn:E2; [|discriminate H3].
  apply bool_decide_eq_true in H3. destruct (trip_ok _ _ E2) as (d' & E3 & E4). exists p_merged, d, p1, d', p2.
  split; [exact H|]. split; [exact H1|]. split; [exact H2|]. split; [exact E3|]. split; [exact E4|]. split; [exact E1|exact H3].
Qed.
Print Assumptions C68_merged_refuted.
