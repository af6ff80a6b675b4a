(** Properties C45, C46, C48, C50, C51: degree conversion, sparse lookup, map
    export, perimeters, checksums. *)
From Verif Require Import Util_model Util_spec Util_proof Kml_model Kml_spec Kml_proof
  Perimeter_model Perimeter_spec Perimeter_proof Raster_spec.
Local Open Scope Z_scope.

(** C45.  Converting a non-negative coordinate to degrees, minutes and seconds
    gives parts in their ranges that stand for exactly that coordinate;
    converting back gives the coordinate rounded to six decimals. *)
Theorem C45_nonnegative c d m s : (0 <= c)%Q -> dotted_to_dms c = (d, m, s) ->
  0 <= d /\ 0 <= m <= 59 /\ (0 <= s < 60#1)%Q /\ (dms_value d m s == c)%Q /\ dms_to_dotted d m s = round6 c.
Proof. exact (dms_nonneg c d m s). Qed.
Print Assumptions C45_nonnegative.

Example C45_case : exists d m s, (0 <= 4426#100)%Q /\ dotted_to_dms (4426#100) = (d, m, s) /\ (d, m) = (44, 15) /\ (s == 36#1)%Q.
Proof. eexists _, _, _. split; [by vm_compute|]. split; [done|]. split; by vm_compute. Qed.

(** C45.  For a negative coordinate the fraction is added instead of
    subtracted: the way back is right only for whole degrees. *)
Theorem C45_negative c d m s : (c <= 0)%Q -> dotted_to_dms c = (d, m, s) ->
  (dms_value d m s == inject_Z (2 * d) - c)%Q /\ dms_to_dotted d m s = round6 (inject_Z (2 * d) - c) /\
  ((dms_value d m s == c)%Q <-> (c == inject_Z d)%Q).
Proof. exact (dms_negative c d m s). Qed.
Print Assumptions C45_negative.

Example C45_negative_case : exists d m s, ((-7225#100) <= 0)%Q /\ dotted_to_dms (-7225#100) = (d, m, s) /\ (d, m) = (-72, 15) /\
  dms_to_dotted d m s = -71750000 /\ ~ ((-7225#100) == inject_Z d)%Q.
Proof. eexists _, _, _. split; [by vm_compute|]. split; [done|]. split; [by vm_compute|]. split; by vm_compute. Qed.

(** C45.  Between -1 and 0 the sign is lost: the coordinate and its opposite
    have the same parts. *)
Theorem C45_sign_lost c : (-(1) < c <= 0)%Q -> exists m s, dotted_to_dms c = (0, m, s) /\
  exists m' s', dotted_to_dms (- c) = (0, m', s') /\ m = m' /\ (s == s')%Q.
Proof. exact (dms_sign_lost c). Qed.
Print Assumptions C45_sign_lost.

Example C45_sign_case : (-(1) < -1#2 <= 0)%Q /\ dotted_to_dms (-1#2) = dotted_to_dms (1#2).
Proof. split; by vm_compute. Qed.

(** C45.  Conversion to arc seconds and back is exact, both ways. *)
Theorem C45_arcseconds s : (arcseconds_to_seconds (seconds_to_arcseconds s) == s)%Q /\
  (seconds_to_arcseconds (arcseconds_to_seconds s) == s)%Q.
Proof. exact (arcseconds_inverse s). Qed.
Print Assumptions C45_arcseconds.

(** C46.  After creating a table from any points and any sequence of sets, gets
    and removals, reading a place gives what was last written to it (nothing
    after a removal), and the default if nothing was ever written to it. *)
Theorem C46_lookup {K V : Type} `{Countable K} (points : list (K * K * option V)) d (ops : list (flop K V)) x y :
  let f := foldl fl_do (fl_new points d) ops in
  let ws := points ++ omap writes ops in
  (forall v, last_write x y ws v -> (fl_get x y f).1 = v) /\
  ((forall v, ~ last_write x y ws v) -> (fl_get x y f).1 = d).
Proof. exact (fastlookup_spec points d ops x y). Qed.
Print Assumptions C46_lookup.

Definition ex_fl_points : list (Z * Z * option Z) := [(1, 2, Some 5); (3, 4, Some 6); (1, 2, Some 7)].
Definition ex_fl_ops : list (flop Z Z) := [FGet 9 9; FRemove 3 4; FSet 1 3 (Some 8)].
Example C46_case :
  last_write 1 2 (ex_fl_points ++ omap writes ex_fl_ops) (Some 7) /\
  last_write 3 4 (ex_fl_points ++ omap writes ex_fl_ops) None /\
  (fl_get 3 4 (foldl fl_do (fl_new ex_fl_points (Some 0)) ex_fl_ops)).1 = None /\
  (fl_get 3 5 (foldl fl_do (fl_new ex_fl_points (Some 0)) ex_fl_ops)).1 = Some 0.
Proof.
  split; [|split; [|split; by vm_compute]].
  - exists [(1, 2, Some 5); (3, 4, Some 6)], [(3, 4, None); (1, 3, Some 8)]. split; [done|]. by repeat constructor.
  - exists [(1, 2, Some 5); (3, 4, Some 6); (1, 2, Some 7)], [(1, 3, Some 8)]. split; [done|]. by repeat constructor.
Qed.

(** C46.  Slicing fails exactly if the range of first coordinates contains one
    that was written, removed or merely read before; otherwise it gives an empty
    table. *)
Theorem C46_slice {K V : Type} `{Countable K} (leb : K -> K -> bool) (points : list (K * K * option V)) d (ops : list (flop K V)) lo up :
  let f := foldl fl_do (fl_new points d) ops in
  let firsts := map (fun p => p.1.1) points ++ map first_coord ops in
  (fl_slice leb lo up f = Err AttributeError <-> exists x, x ∈ firsts /\ leb x up = true /\ leb lo x = true) /\
  (~ (exists x, x ∈ firsts /\ leb x up = true /\ leb lo x = true) -> fl_slice leb lo up f = Ok (fl_new [] d)).
Proof. exact (slice_spec leb points d ops lo up). Qed.
Print Assumptions C46_slice.

Example C46_slice_case :
  fl_slice Z.leb 8 10 (foldl fl_do (fl_new ex_fl_points (Some 0)) ex_fl_ops) = Err AttributeError /\
  fl_slice Z.leb 4 8 (foldl fl_do (fl_new ex_fl_points (Some 0)) ex_fl_ops) = Ok (fl_new [] (Some 0)).
Proof. split; by vm_compute. Qed.

(** C48.  Passing any features, containers and domain maps to the writer fails
    if one of them has no known type, and otherwise every folder holds the
    features of its kind: one for every kind and geometry, the first that came,
    in the order of first appearance.  Disqualified saddles are a kind of their
    own in the folder of the saddles.  Summit domains are all kept. *)
Theorem C48_folders fs :
  let l := all_leaves fs in
  (KOther ∈ l -> kml_extend fs kml_new = Err OtherError) /\
  (KOther ∉ l -> exists w, kml_extend fs kml_new = Ok w /\
    firsts kind_and_place (omap saddles_of l) (k_saddles w) /\
    firsts kind_and_place (omap summits_of l) (k_summits w) /\
    firsts kind_and_place (omap runoffs_of l) (k_runoffs w) /\
    firsts kind_and_place (omap spots_of l) (k_spots w) /\
    firsts kind_and_place (omap linkers_of l) (k_linkers w) /\
    k_domains w = omap domains_of l).
Proof.
  destruct (kml_spec fs) as [H1 H2]. split; [exact H1|]. intros Hn. destruct (H2 Hn) as (w & E & []). by exists w.
Qed.
Print Assumptions C48_folders.

(** C48.  So no folder but that of the domains has two placemarks of the same
    kind and geometry, and everything passed in is there. *)
Theorem C48_unique (l k : list placemark) : firsts kind_and_place l k ->
  NoDup (map kind_and_place k) /\ (forall p, p ∈ l -> exists q, q ∈ k /\ kind_and_place q = kind_and_place p).
Proof.
  intros H. split; [exact (firsts_nodup _ _ _ H)|]. intros p Hp.
  assert (kind_and_place p ∈ map kind_and_place k) as Hin.
  { apply (firsts_elem _ _ _ H). apply elem_of_list_fmap. by exists p. }
  apply elem_of_list_fmap in Hin as (q & E & Hq). by exists q.
Qed.
Print Assumptions C48_unique.

(** C48.  The document has a folder for every kind of feature that was passed in
    and no other, each under its own name and not empty; a folder has a placemark
    for every feature of its kind and no others. *)
Theorem C48_document fs w : KOther ∉ all_leaves fs -> kml_extend fs kml_new = Ok w ->
  let l := all_leaves fs in
  (forall name k, (name, k) ∈ folders ->
     (forall p, p ∈ omap k l -> exists ps q, (name, ps) ∈ document w /\ q ∈ ps /\ kind_and_place q = kind_and_place p) /\
     (forall ps q, (name, ps) ∈ document w -> q ∈ ps -> q ∈ omap k l)) /\
  (forall name ps, (name, ps) ∈ document w -> name ∈ map fst folders /\ ps <> []) /\
  NoDup (map fst (document w)).
Proof. exact (document_spec fs w). Qed.
Print Assumptions C48_document.

Definition ex_features : list kfeature :=
  [KContainer [KLoc (KSaddle false) "POINT (1 2)" "10"; KLoc (KSaddle true) "POINT (1 2)" "11"; KLoc (KSaddle false) "POINT (1 2)" "12"];
   KMap [KLinker "LINE"; KLinker "LINE"] [KLoc (KSaddle true) "POINT (1 2)" "13"] [KLoc KSummit "POINT (1 2)" "14"] [] [KDomain "POLY" "14"; KDomain "POLY" "14"]].
Example C48_case : KOther ∉ all_leaves ex_features /\ exists w, kml_extend ex_features kml_new = Ok w /\
  k_saddles w = [Pm "#saddle" "POINT (1 2)" "10"; Pm "#basinsaddle" "POINT (1 2)" "11"] /\
  k_linkers w = [Pm "" "LINE" ""] /\ k_domains w = [Pm "" "POLY" "14"; Pm "" "POLY" "14"] /\
  map fst (document w) = ["Saddles"; "Summits"; "Linkers"; "SummitDomains"]%string.
Proof.
  split; [intros H; repeat (apply elem_of_cons in H as [H|H]; [discriminate|]); by apply elem_of_nil in H|].
  eexists. split; [vm_compute; reflexivity|]. split; [done|]. split; [done|]. split; done.
Qed.

(** C48.  Summit domains are not told apart: the same one passed twice is
    exported twice. *)
Theorem C48_domains_refuted : exists fs w, kml_extend fs kml_new = Ok w /\ ~ NoDup (map kind_and_place (k_domains w)).
Proof.
  exists [KDomain "POLY" "14"; KDomain "POLY" "14"]. eexists. split; [vm_compute; reflexivity|].
  cbn. intros H. apply NoDup_cons in H as [H _]. apply H. by left.
Qed.
Print Assumptions C48_domains_refuted.

(** C50.  The high part of a perimeter holds exactly its points strictly above
    the given elevation, in their order. *)
Theorem C50_high per e : (forall q, q ∈ findHighPerimeter per e <-> q ∈ per_points per /\ e < pt_e q) /\
  sublist (findHighPerimeter per e) (per_points per).
Proof. split; [exact (high_spec per e)|exact (high_order per e)]. Qed.
Print Assumptions C50_high.

(** C50.  Its neighbourhoods are the connected components of those points. *)
Theorem C50_neighborhoods orc per e :
  (forall p, p ∈ per_points per -> 0 <= pt_x p /\ 0 <= pt_y p) ->
  (forall p q, p ∈ per_points per -> q ∈ per_points per -> pt_xy p = pt_xy q -> p = q) ->
  exists groups, findHighPerimeterNeighborhoods orc per e = Ok groups /\
    (forall g, g ∈ groups -> g <> []) /\ NoDup (concat groups) /\
    (forall q, q ∈ concat groups <-> q ∈ per_points per /\ e < pt_e q) /\
    forall i j g h a b, groups !! i = Some g -> groups !! j = Some h -> a ∈ g -> b ∈ h ->
      (i = j <-> linked (fun p q => adj8 (pt_xy p) (pt_xy q)) (fun q => q ∈ per_points per /\ e < pt_e q) a b).
Proof. exact (high_groups orc per e). Qed.
Print Assumptions C50_neighborhoods.

(** C50.  Iterating over the neighbours of a place in a non-empty collection
    gives exactly the members (the last one per position) that touch it, once
    each; the combined iteration gives only those that share a side. *)
Theorem C50_neighbors points p : points <> [] ->
  (exists l, iterNeighborFull (per_new points) p = Ok l /\ NoDup l /\
    forall q, q ∈ l <-> last_at points q /\ adj8 (pt_xy p) (pt_xy q)) /\
  (exists l, iterNeighborOrthogonal (per_new points) p = Ok l /\ NoDup l /\
    forall q, q ∈ l <-> last_at points q /\ adj4 (pt_xy p) (pt_xy q)) /\
  iterNeighborOrthogonalDiagonal (per_new points) p = iterNeighborOrthogonal (per_new points) p.
Proof. exact (neighbors_spec points p). Qed.
Print Assumptions C50_neighbors.

Definition ex_ring : list pte := [(1, 1, 5); (1, 2, 9); (2, 3, 4); (2, 1, 8); (3, 3, 9)].
Example C50_case :
  findHighPerimeter (per_new ex_ring) 5 = [(1, 2, 9); (2, 1, 8); (3, 3, 9)] /\
  findHighPerimeterNeighborhoods (fun _ => O) (per_new ex_ring) 5 = Ok [[(1, 2, 9); (2, 1, 8)]; [(3, 3, 9)]] /\
  iterNeighborFull (per_new ex_ring) (2, 2, 0) = Ok [(1, 2, 9); (2, 3, 4); (3, 3, 9); (2, 1, 8); (1, 1, 5)] /\
  iterNeighborOrthogonalDiagonal (per_new ex_ring) (2, 2, 0) = Ok [(1, 2, 9); (2, 3, 4); (2, 1, 8)].
Proof. split; [by vm_compute|]. split; [by vm_compute|]. split; by vm_compute. Qed.

(** C50.  A collection created empty has no index: the iteration fails.  A point
    appended later is seen by the filter but not by the iteration. *)
Theorem C50_stale_refuted : iterNeighborFull (per_new []) (0, 0, 0) = Err AttributeError /\
  exists per p q, q ∈ per_points (per_append per q) /\ adj8 (pt_xy p) (pt_xy q) /\ findHighPerimeter (per_append per q) 0 = [p; q] /\
    iterNeighborFull (per_append per q) p = Ok [].
Proof.
  split; [done|]. exists (per_new [(1, 1, 5)]), (1, 1, 5), (1, 2, 6). split; [by right; left|]. split; [|by vm_compute].
  split; [done|]. cbn. lia.
Qed.
Print Assumptions C50_stale_refuted.

(** C51.  For every block size and every chunk size other than zero, the
    checksum is the digest of the whole content, whatever the digest is. *)
Theorem C51_checksum {D : Type} (digest : list ascii -> D) block_size chunks content : 0 < block_size -> chunks <> 0 ->
  checksum digest block_size chunks content = Ok (digest content).
Proof. exact (checksum_whole digest block_size chunks content). Qed.
Print Assumptions C51_checksum.

Example C51_case : checksum (@rev ascii) 2 1 ["a"; "b"; "c"; "d"; "e"]%char = Ok ["e"; "d"; "c"; "b"; "a"]%char.
Proof. by vm_compute. Qed.

(** C51.  With zero blocks per chunk the content is never read. *)
Theorem C51_zero_refuted : exists content, checksum (fun l => l) 128 0 content = Ok [] /\ content <> [].
Proof. by exists ["a"%char]. Qed.
Print Assumptions C51_zero_refuted.

(** C51.  Compressing repeated characters only leaves out repetitions, leaves no
    two equal neighbours, and doing it again changes nothing. *)
Theorem C51_compress s : squeezed (list_ascii_of_string s) (list_ascii_of_string (compress s)) /\
  no_repeats (list_ascii_of_string (compress s)) /\ compress (compress s) = compress s.
Proof. destruct (compress_spec s) as [H1 H2]. split; [exact H1|]. split; [exact H2|exact (compress_idem s)]. Qed.
Print Assumptions C51_compress.

Example C51_compress_case : compress "aabbbaccd" = "abacd"%string.
Proof. by vm_compute. Qed.
