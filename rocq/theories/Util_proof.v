(** Proofs about the utilities. *)
From Verif Require Import Util_model Util_spec Raster_proof Container_proof.
From Coq Require Import Qabs Lqa Qround.
Local Open Scope Z_scope.

(** ** Degrees *)

Lemma py_int_nonneg q : (0 <= q)%Q -> (inject_Z (py_int q) <= q /\ q < inject_Z (py_int q) + 1)%Q /\ 0 <= py_int q.
Proof.
  destruct q as [n d]. unfold py_int, Qle, Qlt, inject_Z. cbn. intros H. rewrite Z.quot_div_nonneg by lia.
  pose proof (Z.div_mod n (Zpos d) ltac:(lia)). pose proof (Z.mod_pos_bound n (Zpos d) ltac:(lia)).
  split; [split; nia|]. apply Z.div_pos; lia.
Qed.
Lemma py_int_opp q : py_int (- q) = - py_int q.
Proof. destruct q as [n d]. unfold py_int. cbn. apply Z.quot_opp_l. lia. Qed.
Lemma py_int_proper q r : (q == r)%Q -> py_int q = py_int r.
Proof.
  assert (forall a b, (0 <= a)%Q -> (a == b)%Q -> py_int a = py_int b) as Hp.
  { intros a b Ha Eab. destruct (py_int_nonneg a Ha) as [[A1 A2] _]. assert (0 <= b)%Q as Hb by lra.
    destruct (py_int_nonneg b Hb) as [[B1 B2] _].
    assert (inject_Z (py_int a) < inject_Z (py_int b + 1))%Q as L1 by (rewrite inject_Z_plus; change (inject_Z 1) with 1%Q; lra).
    assert (inject_Z (py_int b) < inject_Z (py_int a + 1))%Q as L2 by (rewrite inject_Z_plus; change (inject_Z 1) with 1%Q; lra).
    rewrite <-Zlt_Qlt in L1, L2. lia. }
  intros E. destruct (Qlt_le_dec q 0) as [H|H]; [|by apply Hp].
  assert (py_int (- q) = py_int (- r)) as E2 by (apply Hp; lra). rewrite !py_int_opp in E2. lia.
Qed.

(** The general fact: the three parts describe the degrees plus the absolute
    value of the fraction. *)
Lemma dms_parts c d m s : dotted_to_dms c = (d, m, s) ->
  d = py_int c /\ 0 <= m <= 59 /\ (0 <= s < 60#1)%Q /\
  (dms_value d m s == inject_Z d + Qabs (c - inject_Z d))%Q.
Proof.
  unfold dotted_to_dms. cbv zeta. intros E. apply pair_equal_spec in E as [E1 E3]. apply pair_equal_spec in E1 as [<- <-]. subst s. split; [done|].
  set (a := Qabs (c - inject_Z (py_int c))).
  assert (0 <= a)%Q as Ha by apply Qabs_nonneg.
  assert (a < 1)%Q as Ha1.
  { unfold a. apply Qabs_Qlt_condition. destruct (Qlt_le_dec c 0) as [H|H].
    - destruct (py_int_nonneg (- c)) as [[H1 H2] _]; [lra|]. rewrite py_int_opp, inject_Z_opp in H1, H2. split; lra.
    - destruct (py_int_nonneg c H) as [[H1 H2] _]. split; lra. }
  destruct (py_int_nonneg (a * (60#1))) as [[H1 H2] H3]; [lra|]. set (md := (a * (60#1))%Q) in *.
  assert (py_int md <= 59) as Hm.
  { assert (inject_Z (py_int md) < inject_Z 60)%Q as L; [|rewrite <-Zlt_Qlt in L; lia].
    unfold md in *. change (inject_Z 60) with (60#1). lra. }
  split; [lia|]. split; [split; lra|]. unfold dms_value, md in *. lra.
Qed.
Lemma dms_value_eq d m s : dms_to_dotted d m s = round6 (dms_value d m s).
Proof. unfold dms_to_dotted, dms_value. apply round6_proper. field. Qed.

Lemma dms_nonneg c d m s : (0 <= c)%Q -> dotted_to_dms c = (d, m, s) ->
  0 <= d /\ 0 <= m <= 59 /\ (0 <= s < 60#1)%Q /\ (dms_value d m s == c)%Q /\ dms_to_dotted d m s = round6 c.
Proof.
  intros Hc E. apply dms_parts in E as (-> & H1 & H2 & H3). destruct (py_int_nonneg c Hc) as [[A1 A2] A3].
  assert (dms_value (py_int c) m s == c)%Q as Ev by (rewrite H3, Qabs_pos; lra).
  split; [done|]. split; [done|]. split; [done|]. split; [done|].
  rewrite dms_value_eq. by apply round6_proper.
Qed.
(** For negative coordinates the fraction is added on the wrong side. *)
Lemma dms_negative c d m s : (c <= 0)%Q -> dotted_to_dms c = (d, m, s) ->
  (dms_value d m s == inject_Z (2 * d) - c)%Q /\ dms_to_dotted d m s = round6 (inject_Z (2 * d) - c) /\
  ((dms_value d m s == c)%Q <-> (c == inject_Z d)%Q).
Proof.
  intros Hc E. apply dms_parts in E as (-> & H1 & H2 & H3).
  destruct (py_int_nonneg (- c)) as [[A1 A2] A3]; [lra|]. rewrite py_int_opp, inject_Z_opp in A1, A2.
  assert (inject_Z (2 * py_int c) == 2 * inject_Z (py_int c))%Q as E2 by (by rewrite inject_Z_mult).
  assert (dms_value (py_int c) m s == inject_Z (2 * py_int c) - c)%Q as Ev.
  { rewrite H3, Qabs_neg, E2; lra. }
  split; [done|]. split; [rewrite dms_value_eq; by apply round6_proper|]. rewrite Ev, E2. split; intros; lra.
Qed.
Lemma dms_sign_lost c : (-(1) < c <= 0)%Q -> exists m s, dotted_to_dms c = (0, m, s) /\
  exists m' s', dotted_to_dms (- c) = (0, m', s') /\ m = m' /\ (s == s')%Q.
Proof.
  intros [H1 H2]. assert (py_int c = 0) as E.
  { destruct (py_int_nonneg (- c)) as [[A1 A2] A3]; [lra|]. rewrite py_int_opp in *.
    assert (inject_Z (- py_int c) < inject_Z 1)%Q as L by (change (inject_Z 1) with 1%Q; lra). rewrite <-Zlt_Qlt in L. lia. }
  assert (py_int (- c) = 0) as E' by (rewrite py_int_opp; lia).
  unfold dotted_to_dms. rewrite E, E'. do 2 eexists. split; [done|]. do 2 eexists. split; [done|].
  assert (Qabs (c - inject_Z 0) == Qabs (- c - inject_Z 0))%Q as Ea.
  { change (inject_Z 0) with 0%Q. unfold Qminus. rewrite !Qplus_0_r. symmetry. apply Qabs_opp. }
  assert (py_int (Qabs (c - inject_Z 0) * (60 # 1)) = py_int (Qabs (- c - inject_Z 0) * (60 # 1))) as Em
    by (apply py_int_proper; by rewrite Ea).
  split; [done|]. by rewrite Em, Ea.
Qed.
Lemma arcseconds_inverse s : (arcseconds_to_seconds (seconds_to_arcseconds s) == s)%Q /\
  (seconds_to_arcseconds (arcseconds_to_seconds s) == s)%Q.
Proof. unfold arcseconds_to_seconds, seconds_to_arcseconds. split; field. Qed.

(** ** Compression *)

Lemma compress_from_spec s : forall c,
  squeezed (c :: list_ascii_of_string s) (list_ascii_of_string (compress_from c s)) /\
  no_repeats (list_ascii_of_string (compress_from c s)) /\
  exists r, list_ascii_of_string (compress_from c s) = c :: r.
Proof.
  induction s as [|d s IH]; intros c; cbn [compress_from].
  - split; [repeat constructor|]. split; [done|by eexists].
  - destruct (ascii_dec c d) as [<-|Hne].
    + destruct (IH c) as (H1 & H2 & H3). split; [by apply sq_drop|done].
    + destruct (IH d) as (H1 & H2 & r & H3). cbn. split; [by apply sq_keep|]. split; [|by eexists].
      rewrite H3 in *. by split.
Qed.
Lemma compress_spec s : squeezed (list_ascii_of_string s) (list_ascii_of_string (compress s)) /\
  no_repeats (list_ascii_of_string (compress s)).
Proof. destruct s as [|c s]; cbn [compress]; [split; [constructor|done]|]. destruct (compress_from_spec s c) as (H1 & H2 & _). done. Qed.
Lemma squeezed_fix l k : squeezed l k -> no_repeats l -> k = l.
Proof.
  induction 1 as [|a l k _ IH|a l k H IH]; intros Hn; [done| |].
  - f_equal. apply IH. destruct l as [|b l]; [done|]. apply Hn.
  - by destruct Hn.
Qed.
Lemma list_ascii_inj s s' : list_ascii_of_string s = list_ascii_of_string s' -> s = s'.
Proof. intros E. rewrite <-(string_of_list_ascii_of_string s), E. apply string_of_list_ascii_of_string. Qed.
Lemma compress_idem s : compress (compress s) = compress s.
Proof.
  apply list_ascii_inj. apply squeezed_fix; [apply compress_spec|apply compress_spec].
Qed.

(** ** Checksum *)

Section checksum.
  Context {D : Type} (digest : list ascii -> D).
  Lemma checksum_loop_spec n : n <> 0 -> forall fuel fed rest, (S (length rest) < fuel)%nat ->
    checksum_loop digest fuel n fed rest = Ok (digest (fed ++ rest)).
  Proof.
    intros Hn. induction fuel as [|fuel IH]; intros fed rest Hf; [lia|]. cbn [checksum_loop]. unfold file_read.
    destruct (n <? 0) eqn:E.
    - destruct rest as [|a rest]; [by rewrite app_nil_r|]. destruct fuel as [|fuel]; [cbn in Hf; lia|].
      cbn [checksum_loop]. unfold file_read. by rewrite E.
    - destruct (firstn (Z.to_nat n) rest) as [|a ch] eqn:E1.
      + destruct rest as [|a rest]; [by rewrite app_nil_r|]. destruct (Z.to_nat n) eqn:E2; [lia|]. done.
      + assert (fed ++ rest = (fed ++ a :: ch) ++ skipn (Z.to_nat n) rest) as ->.
        { rewrite <-app_assoc. f_equal. rewrite <-E1. by rewrite take_drop. }
        apply IH. rewrite skipn_length. assert (0 < length rest)%nat; [|lia].
        destruct rest; [by rewrite firstn_nil in E1|]. cbn. lia.
  Qed.
  Lemma checksum_whole block_size chunks content : 0 < block_size -> chunks <> 0 ->
    checksum digest block_size chunks content = Ok (digest content).
  Proof. intros Hb Hc. unfold checksum. apply checksum_loop_spec; [|lia]. nia. Qed.
  Lemma checksum_zero block_size content : checksum digest block_size 0 content = Ok (digest []).
  Proof. unfold checksum. cbn. done. Qed.
End checksum.

(** ** FastLookup *)

Section fastlookup.
  Context {K V : Type} `{Countable K} (leb : K -> K -> bool).

  Definition cell (t : gmap K (gmap K (option V))) (x y : K) : option (option V) := row x t !! y.
  Lemma cell_put x y v t x' y' : cell (fl_put x y v t) x' y' = if decide ((x, y) = (x', y')) then Some v else cell t x' y'.
  Proof.
    unfold cell, fl_put, row. destruct (decide (x = x')) as [<-|Hx].
    - rewrite lookup_insert. cbn. destruct (decide (y = y')) as [<-|Hy].
      + by rewrite lookup_insert, decide_True.
      + rewrite lookup_insert_ne by done. rewrite decide_False by congruence. done.
    - rewrite lookup_insert_ne by done. rewrite decide_False by congruence. done.
  Qed.
  Lemma cell_touch x t x' y' : cell (touch x t) x' y' = cell t x' y'.
  Proof.
    unfold cell, touch, row. destruct (decide (x = x')) as [<-|Hx]; [by rewrite lookup_insert|by rewrite lookup_insert_ne].
  Qed.
  Lemma cell_fold ws : forall t x y v, cell (foldl (fun t p => fl_put p.1.1 p.1.2 p.2 t) t ws) x y = Some v <->
    last_write x y ws v \/ (cell t x y = Some v /\ Forall (fun w => w.1 <> (x, y)) ws).
  Proof.
    induction ws as [|[[a b] u] ws IH]; intros t x y v; cbn [foldl].
    - split; [by right|]. intros [(w1 & w2 & E & _)|[E _]]; [by destruct w1|done].
    - rewrite IH, cell_put. cbn [fst snd]. split.
      + intros [(w1 & w2 & -> & Hf)|[E Hf]].
        * left. by exists ((a, b, u) :: w1), w2.
        * destruct (decide ((a, b) = (x, y))) as [[= -> ->]|Hne].
          -- injection E as ->. left. by exists [], ws.
          -- right. split; [done|]. by constructor.
      + intros [(w1 & w2 & E & Hf)|[E Hf]].
        * destruct w1 as [|w w1]; injection E; intros; subst.
          -- right. by rewrite decide_True.
          -- left. by exists w1, w2.
        * apply Forall_cons in Hf as [Hne Hf]. right. by rewrite decide_False.
  Qed.
  Lemma do_hash ops : forall f : fastlookup K V, fl_default (foldl fl_do f ops) = fl_default f /\
    forall x y, cell (fl_hash (foldl fl_do f ops)) x y =
      cell (foldl (fun t p => fl_put p.1.1 p.1.2 p.2 t) (fl_hash f) (omap writes ops)) x y.
  Proof.
    assert (forall (ws : list (K * K * option V)) t t', (forall x y, cell t x y = cell t' x y) -> forall x y,
      cell (foldl (fun t p => fl_put p.1.1 p.1.2 p.2 t) t ws) x y = cell (foldl (fun t p => fl_put p.1.1 p.1.2 p.2 t) t' ws) x y) as Hext.
    { induction ws as [|w ws IH]; intros t t' Ht x y; cbn; [done|]. apply IH. intros. by rewrite !cell_put, Ht. }
    induction ops as [|o ops IH]; intros f; cbn [foldl]; [done|]. destruct (IH (fl_do f o)) as [I1 I2].
    rewrite I1. split; [by destruct o|]. intros x y. rewrite I2. destruct o as [a b v|a b|a b]; cbn; try done.
    apply Hext. intros. apply cell_touch.
  Qed.
  Lemma fastlookup_spec (points : list (K * K * option V)) d (ops : list (flop K V)) x y :
    let f := foldl fl_do (fl_new points d) ops in
    let ws := points ++ omap writes ops in
    (forall v, last_write x y ws v -> (fl_get x y f).1 = v) /\
    ((forall v, ~ last_write x y ws v) -> (fl_get x y f).1 = d).
  Proof.
    cbn zeta. set (f := foldl fl_do (fl_new points d) ops). destruct (do_hash ops (fl_new points d)) as [Hd Hc]. fold f in Hd, Hc.
    assert (forall v, cell (fl_hash f) x y = Some v <-> last_write x y (points ++ omap writes ops) v) as Hcell.
    { intros v. rewrite Hc. cbn. rewrite <-foldl_app, cell_fold. unfold cell, row. rewrite lookup_empty. cbn. rewrite lookup_empty.
      split; [intros [?|[? _]]; done|by left]. }
    unfold fl_get. cbn. change (row x (fl_hash f) !! y) with (cell (fl_hash f) x y). split.
    - intros v Hv. apply Hcell in Hv. by rewrite Hv.
    - intros Hno. destruct (cell (fl_hash f) x y) as [v|] eqn:E; [|done]. destruct (Hno v). by apply Hcell.
  Qed.

  Lemma fold_dom points : forall t : gmap K (gmap K (option V)), forall x, is_Some (foldl (fun t p => fl_put p.1.1 p.1.2 p.2 t) t points !! x) <->
    x ∈ map (fun p => p.1.1) points \/ is_Some (t !! x).
  Proof.
    induction points as [|p points IH]; intros t x; cbn; [rewrite elem_of_nil; tauto|].
    rewrite IH, elem_of_cons. unfold fl_put. destruct (decide (p.1.1 = x)) as [<-|Hne].
    - rewrite lookup_insert. split; [by left; left|]. intros _. right. by eexists.
    - rewrite lookup_insert_ne by done. split; [tauto|]. intros [[->|?]|?]; [done|by left|by right].
  Qed.
  Lemma ops_dom ops : forall (f : fastlookup K V) x, is_Some (fl_hash (foldl fl_do f ops) !! x) <->
    x ∈ map first_coord ops \/ is_Some (fl_hash f !! x).
  Proof.
    induction ops as [|o ops IH]; intros f x; cbn; [rewrite elem_of_nil; tauto|].
    rewrite IH, elem_of_cons. assert (is_Some (fl_hash (fl_do f o) !! x) <-> x = first_coord o \/ is_Some (fl_hash f !! x)) as ->; [|tauto].
    destruct o as [a b v|a b|a b]; cbn; unfold fl_put, touch.
    all: (destruct (decide (a = x)) as [<-|Hne];
      [rewrite lookup_insert; split; [by left|intros _; by eexists]
      |rewrite lookup_insert_ne by done; split; [by right|intros [->|?]; done]]).
  Qed.
  Lemma slice_spec (points : list (K * K * option V)) d (ops : list (flop K V)) lo up :
    let f := foldl fl_do (fl_new points d) ops in
    let firsts := map (fun p => p.1.1) points ++ map first_coord ops in
    (fl_slice leb lo up f = Err AttributeError <-> exists x, x ∈ firsts /\ leb x up = true /\ leb lo x = true) /\
    (~ (exists x, x ∈ firsts /\ leb x up = true /\ leb lo x = true) -> fl_slice leb lo up f = Ok (fl_new [] d)).
  Proof.
    cbn zeta. set (f := foldl fl_do (fl_new points d) ops).
    assert (existsb (fun r => leb r.1 up && leb lo r.1) (map_to_list (fl_hash f)) = true <->
      exists x, x ∈ map (fun p => p.1.1) points ++ map first_coord ops /\ leb x up = true /\ leb lo x = true) as E.
    { rewrite existsb_exists. split.
      - intros ([x r] & Hin & Hb). apply elem_of_list_In, elem_of_map_to_list in Hin. cbn in Hb. apply andb_true_iff in Hb.
        exists x. split; [|done]. assert (is_Some (fl_hash f !! x)) as Hs by by eexists.
        apply ops_dom in Hs as [Hs|Hs]; [apply elem_of_app; by right|]. cbn in Hs. apply fold_dom in Hs as [Hs|Hs]; [apply elem_of_app; by left|].
        rewrite lookup_empty in Hs. by destruct Hs.
      - intros (x & Hin & Hb). assert (is_Some (fl_hash f !! x)) as [r Hr].
        { apply ops_dom. apply elem_of_app in Hin as [Hin|Hin]; [|by left]. right. cbn. apply fold_dom. by left. }
        exists (x, r). split; [by apply elem_of_list_In, elem_of_map_to_list|]. cbn. by apply andb_true_iff. }
    destruct (do_hash ops (fl_new points d)) as [Hd _]. fold f in Hd. unfold fl_slice. destruct (existsb _ _) eqn:E2.
    - split; [split; [by intros _; apply E|done]|]. intros Hno. destruct Hno. by apply E.
    - split; [|by rewrite Hd]. split; [done|]. intros Hx. apply E in Hx. congruence.
  Qed.
End fastlookup.
