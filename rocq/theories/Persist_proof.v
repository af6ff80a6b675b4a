(** Proofs about saving and loading. *)
From Verif Require Import Persist_model Persist_spec Container_spec Container_proof.
Local Open Scope Z_scope.

(** ** Codec basics *)
Lemma ok_inj {A} (a b : A) : Ok a = Ok b -> a = b.
Proof. by intros [= ->]. Qed.
Lemma read_map {A B} (f : val -> res B) (g : A -> val) (h : A -> B) l :
  (forall a, a ∈ l -> f (g a) = Ok (h a)) -> read_all f (map g l) = Ok (map h l).
Proof.
  induction l as [|a l IH]; intros H; [done|]. cbn [map read_all]. rewrite H by (by left). cbn [rbind].
  rewrite IH; [done|]. intros b Hb. apply H. by right.
Qed.
Lemma get_put_pte p : get_pte (put_pte p) = Ok p.
Proof. by destruct p as [[x y] e]. Qed.
Lemma get_put_ptes l : get_ptes (put_ptes l) = Ok l.
Proof. unfold get_ptes, put_ptes, each. rewrite (read_map _ _ id); [by rewrite map_id|]. intros; apply get_put_pte. Qed.
Lemma get_put_ids l : each as_str (ids l) = Ok l.
Proof. unfold ids, each. rewrite (read_map _ _ id); [by rewrite map_id|]. done. Qed.
Lemma key_app k l1 l2 : key k (l1 ++ l2) = match key k l1 with Some v => Some v | None => key k l2 end.
Proof. induction l1 as [|[k' v] l1 IH]; cbn; [done|]. by destruct (String.eqb k k'). Qed.
Lemma key_entry k b k' v : key k (entry b k' v) = if b && String.eqb k k' then Some v else None.
Proof. by destruct b; cbn; [destruct (String.eqb k k')|]. Qed.

Lemma bgp_back p : bgp_from_dict (bgp_to_dict p) = Ok p.
Proof. by destruct p. Qed.
Lemma gp_back p : gp_from_dict (gp_to_dict p) = Ok p.
Proof. by destruct p as [[x y] e]. Qed.
Lemma spot_never s : spot_from_dict (spot_to_dict s) = Err KeyError.
Proof. done. Qed.

Local Arguments put_ptes : simpl never.
Local Arguments get_ptes : simpl never.
Local Arguments put_pte : simpl never.
Local Arguments ids : simpl never.
Local Arguments each : simpl never.
Local Arguments multi_to_dict : simpl never.
Local Arguments multi_from_dict : simpl never.
Local Arguments per_to_dict : simpl never.
Local Arguments per_from_dict : simpl never.
Local Arguments put_multi : simpl never.

(** ** Perimeter *)
Section dicts.
  Context {A : Type}.
  Implicit Types d : list (Z * A).
  Lemma find_put k v k' d : find_at k' (put_at k v d) = if decide (k' = k) then Some v else find_at k' d.
  Proof.
    induction d as [|[j w] d IH]; cbn.
    - by destruct (decide (k' = k)).
    - destruct (decide (k = j)) as [->|Hn]; cbn.
      + by destruct (decide (k' = j)).
      + rewrite IH. destruct (decide (k' = j)) as [->|]; [by rewrite decide_False|done].
  Qed.
  Lemma put_keys k v d j : j ∈ map fst (put_at k v d) <-> j = k \/ j ∈ map fst d.
  Proof.
    induction d as [|[i w] d IH]; cbn.
    - rewrite elem_of_cons, elem_of_nil. tauto.
    - destruct (decide (k = i)) as [->|Hn]; cbn; rewrite !elem_of_cons; [tauto|]. rewrite IH. tauto.
  Qed.
  Lemma put_nodup k v d : NoDup (map fst d) -> NoDup (map fst (put_at k v d)).
  Proof.
    induction d as [|[i w] d IH]; cbn; intros H.
    - constructor; [apply not_elem_of_nil|constructor].
    - apply NoDup_cons in H as [H1 H2]. destruct (decide (k = i)) as [->|Hn]; cbn; constructor; auto.
      rewrite put_keys. intros [->|?]; [done|done].
  Qed.
  Lemma find_in k v d : NoDup (map fst d) -> (find_at k d = Some v <-> (k, v) ∈ d).
  Proof.
    induction d as [|[i w] d IH]; cbn; intros H.
    - split; [done|]. intros []%elem_of_nil.
    - apply NoDup_cons in H as [H1 H2]. destruct (decide (k = i)) as [->|Hn].
      + split.
        * intros [= ->]. by left.
        * intros [[= ->]|Hin]%elem_of_cons; [done|]. destruct H1. apply elem_of_list_fmap. by exists (i, v).
      + rewrite IH by done. rewrite elem_of_cons. split; [auto|]. intros [[= ]|]; [congruence|done].
  Qed.
End dicts.

(** The point kept at a place. *)
Definition cell (d : list (Z * list (Z * pte))) (c : xy) : option pte := r ← find_at c.1 d; find_at c.2 r.
(** Rows are not empty, keys are not repeated, and points are at their place. *)
Definition neat (d : list (Z * list (Z * pte))) : Prop :=
  NoDup (map fst d) /\ forall x r, (x, r) ∈ d -> r <> [] /\ NoDup (map fst r) /\ forall y p, (y, p) ∈ r -> pt_xy p = (x, y).
Lemma put_at_in {A} k (v : A) d i w : NoDup (map fst d) -> (i, w) ∈ put_at k v d -> (i = k /\ w = v) \/ (i, w) ∈ d.
Proof.
  intros Hd Hin. apply find_in in Hin; [|by apply put_nodup]. rewrite find_put in Hin. destruct (decide (i = k)) as [->|].
  - injection Hin as ->. by left.
  - right. by apply find_in.
Qed.
Lemma put_point_neat d p : neat d -> neat (put_point d p).
Proof.
  intros [H1 H2]. split; [by apply put_nodup|]. intros x r Hin. apply put_at_in in Hin as [[-> ->]|Hin]; [|by apply H2|done].
  set (r0 := default [] (find_at (pt_x p) d)).
  assert (NoDup (map fst r0) /\ forall y q, (y, q) ∈ r0 -> pt_xy q = (pt_x p, y)) as [Hr1 Hr2].
  { unfold r0. destruct (find_at (pt_x p) d) as [r|] eqn:E; cbn.
    - apply find_in in E; [|done]. apply H2 in E. tauto.
    - split; [constructor|]. intros y q []%elem_of_nil. }
  split; [|split].
  - intros E. assert (pt_y p ∈ map fst (put_at (pt_y p) p r0)) as Hin by (apply put_keys; by left). rewrite E in Hin. by apply elem_of_nil in Hin.
  - by apply put_nodup.
  - intros y q Hq. apply put_at_in in Hq as [[-> ->]|Hq]; [by destruct p as [[]]|by apply Hr2|done].
Qed.
Lemma put_point_cell d p c : cell (put_point d p) c = if decide (c = pt_xy p) then Some p else cell d c.
Proof.
  unfold cell, put_point. destruct c as [x y]. cbn [fst snd]. rewrite find_put. destruct p as [[px py] e]. cbn.
  destruct (decide (x = px)) as [->|Hx].
  - cbn. rewrite find_put. destruct (decide (y = py)) as [->|Hy].
    + by rewrite decide_True.
    + rewrite decide_False by congruence. destruct (find_at px d) as [r|]; done.
  - by rewrite decide_False by congruence.
Qed.
Lemma hash_spec l : neat (point_hash l) /\ forall c p, cell (point_hash l) c = Some p <-> pt_xy p = c /\ last_at l p.
Proof.
  induction l as [|q l IH] using rev_ind.
  - split; [split; [constructor|intros x r []%elem_of_nil]|]. intros c p. split; [done|]. intros (_ & l1 & l2 & E & _). by destruct l1.
  - destruct IH as [IH1 IH2]. unfold point_hash in *. rewrite foldl_app. cbn [foldl].
    split; [by apply put_point_neat|]. intros c p. rewrite put_point_cell. destruct (decide (c = pt_xy q)) as [->|Hc].
    + split.
      * intros [= ->]. split; [done|]. exists l, []. split; [done|]. intros ? []%elem_of_nil.
      * intros (Hp & l1 & l2 & E & H). destruct l2 as [|x l2 _] using rev_ind.
        -- apply app_inj_tail in E as [_ ->]. done.
        -- rewrite app_comm_cons, app_assoc in E. apply app_inj_tail in E as [_ ->]. destruct (H x); [|by rewrite Hp]. apply elem_of_app. right. by left.
    + rewrite IH2. split.
      * intros (Hp & l1 & l2 & -> & H). split; [done|]. exists l1, (l2 ++ [q]). split; [by rewrite <- app_assoc|].
        intros x Hx. apply elem_of_app in Hx as [Hx|Hx]; [by apply H|]. apply elem_of_list_singleton in Hx as ->. congruence.
      * intros (Hp & l1 & l2 & E & H). split; [done|]. destruct l2 as [|x l2 _] using rev_ind.
        -- apply app_inj_tail in E as [_ ->]. by rewrite Hp in Hc.
        -- rewrite app_comm_cons, app_assoc in E. apply app_inj_tail in E as [-> ->]. exists l1, l2. split; [done|].
           intros y Hy. apply H. apply elem_of_app. by left.
Qed.
Definition cells (d : list (Z * list (Z * pte))) : list (xy * pte) := concat (map (fun r => map (fun e => ((r.1, e.1), e.2)) r.2) d).
Lemma cells_in d c p : neat d -> ((c, p) ∈ cells d <-> cell d c = Some p).
Proof.
  intros [H1 H2]. unfold cells, cell. rewrite elem_of_list_In, in_concat. split.
  - intros (l & Hl & Hin). apply in_map_iff in Hl as ([x r] & <- & Hr). apply elem_of_list_In in Hr. cbn [fst snd] in Hin.
    apply in_map_iff in Hin as ([y q] & E & Hq). apply elem_of_list_In in Hq. cbn in E. injection E as <- ->.
    cbn. apply find_in in Hr as E1; [|done]. rewrite E1. cbn. destruct (H2 x r Hr) as (_ & Hd & _). by apply find_in.
  - destruct c as [x y]. cbn. intros E. destruct (find_at x d) as [r|] eqn:E1; [|done]. cbn in E. apply find_in in E1; [|done].
    destruct (H2 x r E1) as (_ & Hd & _). apply find_in in E; [|done].
    exists (map (fun e => ((x, e.1), e.2)) r). split.
    + apply in_map_iff. exists (x, r). split; [done|]. by apply elem_of_list_In.
    + apply in_map_iff. exists (y, p). split; [done|]. by apply elem_of_list_In.
Qed.
Lemma cells_fst d : map fst (cells d) = concat (map (fun r => map (fun e : Z * pte => (r.1 : Z, e.1)) r.2) d).
Proof. unfold cells. rewrite concat_map, map_map. f_equal. apply map_ext. intros r. by rewrite map_map. Qed.
Lemma cells_nodup d : neat d -> NoDup (map fst (cells d)).
Proof.
  rewrite cells_fst. intros [H1 H2]. induction d as [|[x r] d IH]; cbn; [constructor|].
  cbn in H1. apply NoDup_cons in H1 as [Hx H1]. apply NoDup_app. split; [|split].
  - destruct (H2 x r) as (_ & Hd & _); [by left|]. clear -Hd. induction r as [|[y q] r IH]; cbn in *; [constructor|].
    apply NoDup_cons in Hd as [Hy Hd]. constructor; [|by apply IH]. intros Hin. apply elem_of_list_fmap in Hin as ([y' q'] & E & Hin).
    cbn in E. injection E as ->. apply Hy, elem_of_list_fmap. by exists (y', q').
  - intros [a b] Hin Hin2. apply elem_of_list_fmap in Hin as ([y q] & E & _). cbn in E. injection E as -> ->.
    apply elem_of_list_In, in_concat in Hin2 as (l & Hl & Hin2). apply in_map_iff in Hl as ([x' r'] & <- & Hr).
    apply in_map_iff in Hin2 as ([y' q'] & E & _). cbn in E. injection E as -> ->.
    apply Hx, elem_of_list_fmap. exists (x, r'). split; [done|]. by apply elem_of_list_In.
  - apply IH; [done|]. intros x' r' Hin. apply H2. by right.
Qed.
Lemma cells_points d : neat d -> map pt_xy (map snd (cells d)) = map fst (cells d).
Proof.
  intros Hn. rewrite map_map. apply map_ext_in. intros [c p] Hin. apply elem_of_list_In, cells_in in Hin; [|done]. cbn.
  destruct Hn as [H1 H2]. unfold cell in Hin. destruct (find_at c.1 d) as [r|] eqn:E; [|done]. cbn in Hin. apply find_in in E; [|done].
  destruct (H2 _ _ E) as (_ & Hd & Hp). apply find_in in Hin; [|done]. rewrite (Hp _ _ Hin). by destruct c.
Qed.
Definition per_back (b : bounds) : bounds :=
  Bounds (per_of_index (point_hash (per_points (b_per b)))) (b_edge b) (b_edgepts b).
Lemma per_back_read b : per_from_dict (per_to_dict b) = match b_edgepts b with Some _ => Ok (per_back b) | None => Err TypeError end.
Proof.
  unfold per_from_dict, per_to_dict. cbn [dget key String.eqb Ascii.eqb Bool.eqb]. cbn. rewrite get_put_ptes. cbn.
  destruct (b_edgepts b) as [l|] eqn:E; cbn; [|done]. rewrite get_put_ptes. cbn. unfold per_back. by rewrite E.
Qed.
Lemma per_back_kept b : kept_bounds b (per_back b).
Proof.
  destruct (hash_spec (per_points (b_per b))) as [Hn Hc]. set (l := per_points (b_per b)) in *. set (d := point_hash l) in *.
  assert (per_points (b_per (per_back b)) = map snd (cells d)) as Ep.
  { unfold per_back. cbn [b_per]. fold l d. unfold per_of_index. destruct d as [|r d']; [done|]. cbn [per_points]. unfold cells.
    rewrite concat_map, map_map. f_equal. apply map_ext. intros r'. by rewrite map_map. }
  assert (d = [] <-> l = []) as Hempty.
  { split; intros E.
    - destruct l as [|q l' _] eqn:El using rev_ind; [done|]. assert (cell d (pt_xy q) = Some q) as H.
      { apply Hc. split; [done|]. exists l', []. split; [done|]. intros ? []%elem_of_nil. }
      by rewrite E in H.
    - subst d. by rewrite E. }
  split; [| | |done|done].
  - intros p. rewrite Ep. split.
    + intros Hin. apply elem_of_list_fmap in Hin as ([c q] & -> & Hin). apply cells_in, Hc in Hin; [|done]. tauto.
    + intros H. apply elem_of_list_fmap. exists (pt_xy p, p). split; [done|]. apply cells_in; [done|]. by apply Hc.
  - rewrite Ep, cells_points by done. by apply cells_nodup.
  - unfold per_back. cbn [b_per]. fold l d. unfold per_of_index. destruct d as [|r d'] eqn:Ed; cbn [per_index].
    + by apply Hempty.
    + rewrite <- Ed in *. split; [intros E; apply Hempty in E; congruence|]. intros c p. rewrite <- Hc.
      change (concat _) with (cells d). rewrite <- (cells_in d c p) by done. split.
      * apply elem_of_list_to_map_2.
      * apply elem_of_list_to_map_1. by apply cells_nodup.
Qed.
Lemma last_at_nodup l p : NoDup (map pt_xy l) -> (last_at l p <-> p ∈ l).
Proof.
  intros Hd. split.
  - intros (l1 & l2 & -> & _). apply elem_of_app. right. by left.
  - intros Hin. apply elem_of_list_split in Hin as (l1 & l2 & ->). exists l1, l2. split; [done|]. intros q Hq E.
    rewrite map_app in Hd. cbn in Hd. apply NoDup_app in Hd as (_ & _ & Hd). apply NoDup_cons in Hd as [Hd _].
    apply Hd. rewrite <- E. by apply elem_of_list_fmap_1.
Qed.
Lemma kept_perm b b' : kept_bounds b b' -> NoDup (map pt_xy (per_points (b_per b))) -> per_points (b_per b') ≡ₚ per_points (b_per b).
Proof.
  intros [H1 H2 _ _ _] Hd. apply NoDup_Permutation.
  - by apply (NoDup_fmap_1 pt_xy).
  - by apply (NoDup_fmap_1 pt_xy).
  - intros p. rewrite H1. by apply last_at_nodup.
Qed.

(** ** MultiPoint *)
Definition multi_back (u : multi) : multi :=
  Multi (map (fun p => (p.1, None)) (mu_points u)) (mu_ele u) (per_back <$> mu_per u).
Lemma multi_back_read u v : multi_to_dict u = Ok v ->
  multi_from_dict v = match mu_per u with Some b => match b_edgepts b with Some _ => Ok (multi_back u) | None => Err TypeError end | None => Err AttributeError end.
Proof.
  unfold multi_to_dict. destruct (mu_per u) as [b|] eqn:E; [|done]. intros [= <-]. unfold multi_from_dict. cbn. unfold each.
  rewrite (read_map _ _ (fun p : mpoint => (p.1, None))). 2: { intros [[x y] [e|]] _; done. }
  cbn. rewrite per_back_read. destruct (b_edgepts b) eqn:E2; [|done]. cbn. unfold multi_back. by rewrite E.
Qed.
Definition opt_back (o : option multi) : option multi :=
  match o with Some u => if decide (mu_points u = []) then None else Some (multi_back u) | None => None end.
Lemma opt_back_kept o : has_perimeter o -> kept_multi o (opt_back o).
Proof.
  intros H. destruct o as [u|]; [|done]. unfold kept_multi, opt_back. destruct (decide (mu_points u = [])) as [E|E]; [done|]. destruct (mu_per u) as [b|] eqn:Eb; [|by destruct (H u)].
  exists b, (per_back b). split; [done|]. split; [apply per_back_kept|]. unfold multi_back. by rewrite Eb.
Qed.
Lemma put_multi_ok o : (exists l, put_multi o = Ok l) <-> has_perimeter o.
Proof.
  unfold has_perimeter, put_multi. destruct o as [u|]; [|split; [done|by exists []]]. destruct (decide (mu_points u = [])) as [E|E].
  - split; [intros _ u' [= <-] Hn; done|by exists []].
  - unfold multi_to_dict. destruct (mu_per u) as [b|] eqn:Eb; cbn.
    + split; [intros _ u' [= <-] _; congruence|by eexists].
    + split; [intros [l [=]]|]. intros H. by destruct (H u).
Qed.
Lemma put_multi_err o e : put_multi o = Err e -> e = AttributeError.
Proof. unfold put_multi. destruct o as [u|]; [|done]. destruct (decide _); [done|]. unfold multi_to_dict. destruct (mu_per u); cbn; congruence. Qed.
(** Whether the saved flat area can be read. *)
Definition readable (o : option multi) : bool :=
  match o with
  | Some u => match mu_points u with [] => true | _ => match mu_per u with Some b => match b_edgepts b with Some _ => true | None => false end | None => false end end
  | None => true
  end.
Lemma readable_spec o : has_perimeter o -> (readable o = true <-> has_edge_list o).
Proof.
  unfold has_perimeter, has_edge_list. destruct o as [u|]; cbn; [|intros _; split; [intros _ u b E; discriminate E|done]]. intros H.
  destruct (mu_points u) as [|a l] eqn:E.
  { split; [|done]. intros _ u' b [= <-] Hn. congruence. }
  destruct (mu_per u) as [b|] eqn:Eb; [|exfalso; apply (H u); congruence]. destruct (b_edgepts b) as [ep|] eqn:Ee.
  - split; [|done]. intros _ u' b' [= <-] _ E'. congruence.
  - split; [done|]. intros H'. exfalso. apply (H' u b); congruence.
Qed.
Lemma put_multi_key o l k : put_multi o = Ok l -> String.eqb k "multipoint" = false -> key k l = None.
Proof.
  unfold put_multi. destruct o as [u|]; [|by intros [= <-]]. destruct (decide (mu_points u = [])); [by intros [= <-]|].
  destruct (multi_to_dict u) as [v|]; [|done]. cbn. intros [= <-] E. cbn. by rewrite E.
Qed.
Lemma put_multi_get o l : put_multi o = Ok l ->
  match key "multipoint" l with None => Ok None | Some v => let* u := multi_from_dict v in Ok (Some u) end =
  (if readable o then Ok (opt_back o) else Err TypeError : res (option multi)).
Proof.
  unfold put_multi. destruct o as [u|]; [|by intros [= <-]]. cbn [readable opt_back]. destruct (mu_points u) as [|a pts] eqn:Ep.
  - rewrite !decide_True by done. by intros [= <-].
  - rewrite !decide_False by done. destruct (multi_to_dict u) as [v|] eqn:E; [|done]. cbn [rbind]. intros [= <-]. cbn [key String.eqb Ascii.eqb Bool.eqb].
    rewrite (multi_back_read u v E). unfold multi_to_dict in E. destruct (mu_per u) as [b|]; [|done]. by destruct (b_edgepts b).
Qed.

Lemma get_multi_at o l l1 l2 : put_multi o = Ok l -> key "multipoint" l1 = None -> key "multipoint" l2 = None ->
  get_multi (VDict (l1 ++ l ++ l2)) = if readable o then Ok (opt_back o) else Err TypeError.
Proof.
  intros H H1 H2. rewrite <- (put_multi_get o l H). unfold get_multi. cbn [dget_opt rbind]. rewrite !key_app, H1, H2.
  by destruct (key "multipoint" l).
Qed.

(** ** Summits and saddles *)
Definition summit_back (u : psummit) : psummit := PSummit (pu_at u) (pu_edge u) (pu_edgepts u) (opt_back (pu_multi u)) [] None.
Lemma summit_read e d : summit_to_dict e = Ok d ->
  summit_from_dict d = if readable (pu_multi e.2) then Ok (e.1, summit_back e.2) else Err TypeError.
Proof.
  destruct e as [i u]. unfold summit_to_dict. cbn [fst snd]. destruct (put_multi (pu_multi u)) as [mu|] eqn:E; [|done]. cbn [rbind]. intros <-%ok_inj.
  unfold summit_from_dict. rewrite (get_multi_at _ _ _ _ E) by done. cbn. rewrite get_put_ptes. cbn.
  destruct (readable (pu_multi u)); [|done]. cbn. unfold summit_back. by destruct (pu_at u).
Qed.
Definition saddle_back (runoff : bool) (s : psaddle) : psaddle :=
  PSaddle (pa_at s) (runoff || pa_edge s) (pa_edgepts s) (opt_back (pa_multi s)) (pa_hpn s) [] None [] (pa_single s) (pa_basin s) []
    (match pa_over s with Some true => Some true | _ => None end).
Definition saddle_head (e : string * psaddle) : list (string * val) :=
  [("lat", VNum (sp_lat (pa_at e.2))); ("lon", VNum (sp_lon (pa_at e.2))); ("ele", VInt (sp_ele (pa_at e.2)));
   ("edge", VBool (pa_edge e.2)); ("edgepoints", put_ptes (pa_edgepts e.2)); ("id", VStr e.1)]%string
  ++ entry (pa_single e.2) "singleSummit" (VBool true) ++ entry (pa_basin e.2) "basinSaddle" (VBool true)
  ++ entry (bool_decide (pa_over e.2 = Some true)) "disqualified" (VBool true).
Definition saddle_tail (s : psaddle) : list (string * val) :=
  entry (negb (bool_decide (pa_hpn s = []))) "highPerimeterNeighborhoods" (VSeq (map put_ptes (pa_hpn s)))
  ++ [("children", ids (pa_children s)); ("summits", ids (pa_links s))]%string
  ++ match pa_parent s with Some p => [("parent", VStr p)]%string | None => [] end
  ++ entry (negb (bool_decide (pa_alts s = []))) "basinSaddleAlternatives" (ids (pa_alts s)).
Lemma saddle_written e d : saddle_to_dict e = Ok d <-> exists mu, put_multi (pa_multi e.2) = Ok mu /\ d = VDict (saddle_head e ++ mu ++ saddle_tail e.2).
Proof.
  unfold saddle_to_dict. destruct (put_multi (pa_multi e.2)) as [mu|]; cbn [rbind].
  - assert (forall x, VDict (saddle_head e ++ mu ++ saddle_tail e.2) = x <->
      VDict ([("lat", VNum (sp_lat (pa_at e.2)));
              ("lon", VNum (sp_lon (pa_at e.2)));
              ("ele", VInt (sp_ele (pa_at e.2)));
              ("edge", VBool (pa_edge e.2));
              ("edgepoints", put_ptes (pa_edgepts e.2));
              ("id", VStr e.1)]%string
             ++ entry (pa_single e.2) "singleSummit" (VBool true)
             ++ entry (pa_basin e.2) "basinSaddle" (VBool true)
             ++ entry (bool_decide (pa_over e.2 = Some true)) "disqualified" (VBool true)
             ++ mu ++ saddle_tail e.2) = x) as H by (intros x; unfold saddle_head; by rewrite <- !app_assoc).
    split.
    + intros <-%ok_inj. exists mu. split; [done|]. symmetry. by apply H.
    + intros (mu' & [= <-] & ->). f_equal. by apply H.
  - split; [done|]. by intros (mu & [=] & _).
Qed.
Section saddle_dict.
  Variables (e : string * psaddle) (mu : list (string * val)).
  Hypothesis Hmu : put_multi (pa_multi e.2) = Ok mu.
  Notation D := (VDict (saddle_head e ++ mu ++ saddle_tail e.2)).
  Lemma mu_key k : String.eqb k "multipoint" = false -> key k mu = None.
  Proof using Hmu. apply (put_multi_key _ _ _ Hmu). Qed.
  Lemma sd_key k : String.eqb k "multipoint" = false -> key k (saddle_head e ++ mu ++ saddle_tail e.2) =
    match key k (saddle_head e) with Some v => Some v | None => key k (saddle_tail e.2) end.
  Proof using Hmu. intros H. by rewrite !key_app, (mu_key k H). Qed.
  Lemma sd_id : dget D "id" = Ok (VStr e.1).
  Proof. done. Qed.
  Lemma sd_flag k (b : bool) : String.eqb k "multipoint" = false -> key k (saddle_head e) = (if b then Some (VBool true) else None) ->
    key k (saddle_tail e.2) = None -> flag D k = Ok b.
  Proof using Hmu. intros H1 H2 H3. unfold flag. cbn [dget_opt rbind]. rewrite sd_key, H2, H3 by done. by destruct b. Qed.
  Lemma tail_none k : forallb (fun k' => negb (String.eqb k k')) ["highPerimeterNeighborhoods"; "children"; "summits"; "parent"; "basinSaddleAlternatives"]%string = true ->
    key k (saddle_tail e.2) = None.
  Proof.
    cbn [forallb]. rewrite !andb_true_iff, !negb_true_iff. intros (H1 & H2 & H3 & H4 & H5 & _). unfold saddle_tail.
    rewrite !key_app, !key_entry, H1, H5, !andb_false_r. cbn [key]. rewrite H2, H3. destruct (pa_parent e.2); cbn [key]; by rewrite ?H4.
  Qed.
  Lemma head_none k : forallb (fun k' => negb (String.eqb k k')) ["lat"; "lon"; "ele"; "edge"; "edgepoints"; "id"; "singleSummit"; "basinSaddle"; "disqualified"]%string = true ->
    key k (saddle_head e) = None.
  Proof.
    cbn [forallb]. rewrite !andb_true_iff, !negb_true_iff. intros (H1 & H2 & H3 & H4 & H5 & H6 & H7 & H8 & H9 & _). unfold saddle_head.
    rewrite !key_app, !key_entry, H7, H8, H9, !andb_false_r. cbn [key]. by rewrite H1, H2, H3, H4, H5, H6.
  Qed.
  Lemma sd_children : listed D "children" = Ok (pa_children e.2).
  Proof using Hmu.
    unfold listed. cbn [dget_opt rbind]. rewrite sd_key, head_none by done. unfold saddle_tail. rewrite !key_app, key_entry.
    rewrite andb_false_r. cbn [key String.eqb Ascii.eqb Bool.eqb]. apply get_put_ids.
  Qed.
  Lemma sd_parent : dget_opt D "parent" = Ok (VStr <$> pa_parent e.2).
  Proof using Hmu.
    cbn [dget_opt]. rewrite sd_key, head_none by done. unfold saddle_tail. rewrite !key_app, !key_entry, !andb_false_r.
    cbn [key String.eqb Ascii.eqb Bool.eqb]. by destruct (pa_parent e.2).
  Qed.
  Lemma sd_alts : listed D "basinSaddleAlternatives" = Ok (pa_alts e.2).
  Proof using Hmu.
    unfold listed. cbn [dget_opt rbind]. rewrite sd_key, head_none by done. unfold saddle_tail. rewrite !key_app, !key_entry, andb_false_r.
    cbn [key String.eqb Ascii.eqb Bool.eqb]. assert (key "basinSaddleAlternatives" (match pa_parent e.2 with Some p => [("parent", VStr p)]%string | None => [] end) = None) as ->
      by (by destruct (pa_parent e.2)). rewrite andb_true_r. case_bool_decide as E; cbn [negb]; [by rewrite E|]. apply get_put_ids.
  Qed.
  Lemma saddle_read runoff : saddle_from_dict runoff D = if readable (pa_multi e.2) then Ok (e.1, saddle_back runoff e.2) else Err TypeError.
  Proof using Hmu.
    unfold saddle_from_dict. rewrite (get_multi_at _ _ _ _ Hmu); [|by apply head_none|by apply tail_none].
    rewrite (sd_flag "singleSummit" (pa_single e.2)); [|done| |by apply tail_none].
    2: { unfold saddle_head. rewrite !key_app, !key_entry, andb_true_r. cbn [key String.eqb Ascii.eqb Bool.eqb]. rewrite !andb_false_r. by destruct (pa_single e.2). }
    rewrite (sd_flag "basinSaddle" (pa_basin e.2)); [|done| |by apply tail_none].
    2: { unfold saddle_head. rewrite !key_app, !key_entry, andb_true_r. cbn [key String.eqb Ascii.eqb Bool.eqb]. rewrite !andb_false_r. by destruct (pa_basin e.2). }
    assert (dget_opt D "disqualified" = Ok (if bool_decide (pa_over e.2 = Some true) then Some (VBool true) else None)) as ->.
    { cbn [dget_opt]. rewrite sd_key, tail_none by done. unfold saddle_head. rewrite !key_app, !key_entry, andb_true_r. cbn [key String.eqb Ascii.eqb Bool.eqb].
      rewrite !andb_false_r. by destruct (bool_decide _). }
    assert (dget_opt D "highPerimeterNeighborhoods" = Ok (if negb (bool_decide (pa_hpn e.2 = [])) then Some (VSeq (map put_ptes (pa_hpn e.2))) else None)) as ->.
    { cbn [dget_opt]. rewrite sd_key, head_none by done. unfold saddle_tail. rewrite !key_app, !key_entry, andb_true_r, andb_false_r. cbn [key String.eqb Ascii.eqb Bool.eqb].
      destruct (negb _); [done|]. by destruct (pa_parent e.2). }
    assert (match (if negb (bool_decide (pa_hpn e.2 = [])) then Some (VSeq (map put_ptes (pa_hpn e.2))) else None) with
            | None => Ok [] | Some v => each get_ptes v end = Ok (pa_hpn e.2)) as Hh.
    { case_bool_decide as E; cbn [negb]; [by rewrite E|]. unfold each. rewrite (read_map _ _ id); [by rewrite map_id|]. intros; apply get_put_ptes. }
    cbn. rewrite get_put_ptes. cbn. assert (match (if bool_decide (pa_over e.2 = Some true) then Some (VBool true) else None) with
            | None => Ok None | Some v => let* b := as_bool v in Ok (Some b) end = Ok (match pa_over e.2 with Some true => Some true | _ => None end)) as Ho.
    { destruct (pa_over e.2) as [[]|]; done. }
    rewrite Ho. cbn. destruct (readable (pa_multi e.2)); [|done]. cbn. rewrite Hh. cbn. unfold saddle_back. by destruct (pa_at e.2).
  Qed.
End saddle_dict.
