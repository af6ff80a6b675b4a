(** Climbing terminates, never descends and ends in a registered domain. *)
From Verif Require Import Climb_model Raster_spec Raster_proof Raster_facts Contig_proof Blob_proof
  Closest_spec Closest_proof Feature_spec Climb_spec.
From Coq Require Import ZifyBool.
Local Open Scope Z_scope.

Lemma foldM_inv {A S} (f : A -> S -> res S) (P : S -> Prop) (Q : exn -> Prop) l :
  (forall a s, a ∈ l -> P s -> match f a s with Ok s' => P s' | Err e => Q e end) ->
  forall s, P s -> match foldM f l s with Ok s' => P s' | Err e => Q e end.
Proof.
  induction l as [|a l IH]; intros Hf s Hs; cbn [foldM]; [done|].
  pose proof (Hf a s ltac:(by left) Hs) as H1. destruct (f a s) as [s'|e]; cbn [rbind]; [|done].
  apply IH; [|done]. intros b t Hb. apply Hf. by right.
Qed.

(** ** Uphill paths *)
Lemma uphill_refl m a : data_cell m a -> uphill m a a.
Proof. by constructor. Qed.
Lemma uphill_trans m a b c : uphill m a b -> uphill m b c -> uphill m a c.
Proof. apply linked_trans. Qed.
Lemma uphill_step m a b c : uphill m a b -> data_cell m c -> adj8 b c -> elev m b <= elev m c -> uphill m a c.
Proof. intros. eapply linked_step; [done..|]. by split. Qed.
Lemma uphill_flat m a b : same_flat m a b -> uphill m a b.
Proof.
  induction 1 as [H|b c H IH Hc [Ha He]]; [by apply uphill_refl|].
  eapply uphill_step; [done..|lia].
Qed.
Lemma uphill_le m a b : uphill m a b -> elev m a <= elev m b.
Proof. induction 1 as [|b c H IH Hc [Ha He]]; lia. Qed.
Lemma uphill_data_l m a b : uphill m a b -> data_cell m a.
Proof. apply linked_in_l. Qed.
Lemma uphill_data_r m a b : uphill m a b -> data_cell m b.
Proof. apply linked_in_r. Qed.

Lemma same_flat_peak m a b : same_flat m a b -> peak m a -> peak m b.
Proof.
  intros Hab [Ha Hn]. split; [by eapply same_flat_data_r|].
  intros q (Hq & Hlt & c & Hc & Hadj). apply (Hn q). split; [done|].
  pose proof (same_flat_elev _ _ _ Hab). split; [lia|].
  exists c. split; [by eapply same_flat_trans|done].
Qed.
Lemma higher_rim_flat m a b q : same_flat m a b -> higher_rim m a q -> higher_rim m b q.
Proof.
  intros Hab (Hq & Hlt & c & Hc & Hadj). pose proof (same_flat_elev _ _ _ Hab).
  split; [done|]. split; [lia|]. exists c. split; [|done].
  eapply same_flat_trans; [by apply same_flat_sym|done].
Qed.

(** ** The steepest neighbour on a raster with a low nodata marker *)
Lemma steepest_data m p : north_up m -> climbable m -> data_cell m p ->
  exists r, steepestNeighbor m p.1 p.2 = Ok r /\
    match r with
    | None => peak m p
    | Some (q, e) => adj8 p q /\ data_cell m q /\ e = elev m q /\ elev m p <= elev m q
    end.
Proof.
  intros _ [Hlow Hok] Hd. destruct p as [x y].
  destruct (steepest_any m x y Hok (proj1 Hd)) as (r & l & Hr & _ & H).
  exists r. split; [done|]. destruct r as [[q e]|].
  - destruct H as (Ha & Hrep & Hle & _).
    assert (dm_nodata m <> Some e) as Hne.
    { intros E. pose proof (Hlow e (x, y) E Hd). lia. }
    destruct (reported_data _ _ _ Hrep Hne) as [Hq ->]. done.
  - pose proof H as Hall. clear H. split; [done|].
    intros q (Hq & Hlt & c & Hc & Hadj).
    assert (c = (x, y)) as ->.
    { clear -Hc Hall. induction Hc as [|b c H IH Hc [Ha He]]; [done|]. subst b.
      exfalso. assert (elev m c < elev m (x, y)); [|lia].
      apply (Hall c); [done|]. left. split; [apply Hc|done]. }
    assert (elev m q < elev m (x, y)); [|lia].
    apply (Hall q); [done|]. left. split; [apply Hq|done].
Qed.

(** ** Fuel *)
Definition above (m : datamap) (e : Z) : nat := length (filter (fun c => e < elev m c) (all_cells m)).
Lemma above_lt m e c : in_map m c -> e < elev m c -> (above m (elev m c) < above m e)%nat.
Proof.
  intros Hc Hlt. unfold above. apply elem_of_all_cells in Hc.
  induction (all_cells m) as [|a l IH]; [by apply elem_of_nil in Hc|].
  assert (Hmono : (length (filter (fun c0 => (elev m c < elev m c0)%Z) l) <=
                   length (filter (fun c0 => (e < elev m c0)%Z) l))%nat).
  { clear IH Hc. induction l as [|b l IH]; [done|]. rewrite !filter_cons.
    destruct (decide (elev m c < elev m b)); destruct (decide (e < elev m b)); cbn; lia. }
  rewrite !filter_cons. apply elem_of_cons in Hc as [->|Hc].
  - destruct (decide (elev m a < elev m a)); [lia|]. destruct (decide (e < elev m a)); [|lia].
    cbn. lia.
  - specialize (IH Hc).
    destruct (decide (elev m c < elev m a)); destruct (decide (e < elev m a)); cbn; lia.
Qed.
Lemma above_fuel m e : map_ok m -> (above m e < climb_fuel m)%nat.
Proof.
  intros Hok. unfold climb_fuel. rewrite <-length_all_cells by done.
  unfold above. pose proof (filter_length (fun c => e < elev m c) (all_cells m)). lia.
Qed.

(** ** Extending a domain *)
Lemma extend_log d cs s : cs_log (sd_extend d cs s) = cs_log s ++ map (pair d) cs.
Proof.
  revert s. induction cs as [|c cs IH]; intros s; cbn; [by rewrite app_nil_r|].
  fold (sd_extend d cs (sd_append d c s)). rewrite IH. cbn. by rewrite <-app_assoc.
Qed.
Lemma extend_table d cs s c :
  cs_table (sd_extend d cs s) !! c = if decide (c ∈ cs) then Some d else cs_table s !! c.
Proof.
  revert s. induction cs as [|a cs IH]; intros s.
  - cbn. destruct (decide (c ∈ [])) as [H|]; [by apply elem_of_nil in H|done].
  - change (sd_extend d (a :: cs) s) with (sd_extend d cs (sd_append d a s)). rewrite IH.
    destruct (decide (c ∈ cs)) as [Hc|Hc]; destruct (decide (c ∈ a :: cs)) as [Hc'|Hc']; try done.
    + exfalso. apply Hc'. by right.
    + apply elem_of_cons in Hc' as [->|Hc']; [|done]. cbn. by rewrite lookup_insert.
    + cbn. rewrite lookup_insert_ne; [done|]. intros ->. apply Hc'. by left.
Qed.

Section climb.
  Variables (near : searches) (m : datamap).
  Hypotheses (Hnear : sound_searches near m) (Hok : map_ok m) (Hup : north_up m)
    (Hlow : climbable m) (Hreach : pixels_in_reach m).
  (** [dom d t]: [t] is a cell of the summit of domain [d]. *)
  Variable dom : nat -> xy -> Prop.

  (** A flat area of several cells with higher ground around it. *)
  Definition shelf (c : xy) : Prop :=
    (exists c', same_flat m c c' /\ c' <> c) /\ (exists q, higher_rim m c q).

  Record inv (s : climb_state) : Prop := {
    i_sound : forall c d, cs_table s !! c = Some d -> exists t, dom d t /\ uphill m c t;
    i_once : NoDup (map snd (cs_log s));
    i_listed : forall d c, (d, c) ∈ cs_log s -> cs_table s !! c = Some d \/
      (is_Some (cs_table s !! c) /\ shelf c);
    i_peak : forall d t, dom d t -> peak m t -> cs_table s !! t = Some d }.

  (** From [s] to [s'] nothing was forgotten and only cells at least as high as
      [lo] were touched. *)
  Record ext (lo : Z) (s s' : climb_state) : Prop := {
    e_mono : forall c, is_Some (cs_table s !! c) -> is_Some (cs_table s' !! c);
    e_lo : forall c, cs_table s' !! c <> cs_table s !! c -> lo <= elev m c;
    e_log : exists ex, cs_log s' = cs_log s ++ ex /\ forall d c, (d, c) ∈ ex -> lo <= elev m c }.

  Definition complete (s : climb_state) : Prop := forall p, peak m p -> is_Some (cs_table s !! p).

  Lemma ext_refl lo s : ext lo s s.
  Proof. split; [done|done|]. exists []. rewrite app_nil_r. split; [done|]. intros d c H.
    by apply elem_of_nil in H. Qed.
  Lemma ext_trans lo s1 s2 s3 : ext lo s1 s2 -> ext lo s2 s3 -> ext lo s1 s3.
  Proof.
    intros [M1 L1 (x1 & E1 & X1)] [M2 L2 (x2 & E2 & X2)]. split.
    - auto.
    - intros c Hc. destruct (decide (cs_table s2 !! c = cs_table s1 !! c)) as [E|E].
      + apply L2. by rewrite E.
      + by apply L1.
    - exists (x1 ++ x2). rewrite E2, E1, <-app_assoc. split; [done|].
      intros d c [H|H]%elem_of_app; eauto.
  Qed.
  Lemma ext_weaken lo lo' s s' : lo' <= lo -> ext lo s s' -> ext lo' s s'.
  Proof.
    intros Hl [M L (x & E & X)]. split; [done| |].
    - intros c Hc. specialize (L c Hc). lia.
    - exists x. split; [done|]. intros d c H. specialize (X d c H). lia.
  Qed.
  Lemma ext_complete lo s s' : ext lo s s' -> complete s -> complete s'.
  Proof. intros [M _ _] H p Hp. auto. Qed.

  (** Appending the climbed cells to the domain found. *)
  Lemma extend_inv lo d climbed s :
    inv s -> NoDup climbed ->
    (forall c, c ∈ climbed -> lo <= elev m c /\
       (forall d', (d', c) ∉ cs_log s) /\
       (peak m c -> forall d', ~ dom d' c) /\
       exists t, dom d t /\ uphill m c t) ->
    inv (sd_extend d climbed s) /\ ext lo s (sd_extend d climbed s) /\
    (forall c, c ∈ climbed -> cs_table (sd_extend d climbed s) !! c = Some d).
  Proof.
    intros [S1 O1 L1 P1] Hnd Hc. split; [|split].
    - split.
      + intros c e. rewrite extend_table. destruct (decide (c ∈ climbed)) as [Hin|Hin].
        * intros [= <-]. apply Hc; done.
        * apply S1.
      + rewrite extend_log, map_app, map_map. cbn. rewrite map_id. apply NoDup_app.
        split_and!; [done| |done]. intros c Hin Hin2.
        apply elem_of_list_fmap in Hin as ([d' c'] & -> & Hin). cbn in *.
        destruct (Hc c' Hin2) as (_ & Hlog & _). by apply (Hlog d').
      + intros d' c. rewrite extend_log, extend_table. intros [H|H]%elem_of_app.
        * destruct (decide (c ∈ climbed)) as [Hin|Hin]; [|by apply L1].
          exfalso. destruct (Hc c Hin) as (_ & Hlog & _). by apply (Hlog d').
        * apply elem_of_list_fmap in H as (c' & [= -> ->] & Hin).
          destruct (decide (c' ∈ climbed)); [by left|done].
      + intros d' t Ht Hp. rewrite extend_table. destruct (decide (t ∈ climbed)) as [Hin|Hin].
        * exfalso. destruct (Hc t Hin) as (_ & _ & Hnd' & _). by apply (Hnd' Hp d').
        * by apply P1.
    - split.
      + intros c H. rewrite extend_table. destruct (decide (c ∈ climbed)); [by eexists|done].
      + intros c. rewrite extend_table. destruct (decide (c ∈ climbed)) as [Hin|]; [|done].
        intros _. by apply Hc.
      + exists (map (pair d) climbed). rewrite extend_log. split; [done|].
        intros d' c H. apply elem_of_list_fmap in H as (c' & [= -> ->] & Hin). by apply Hc.
    - intros c Hin. rewrite extend_table. by destruct (decide (c ∈ climbed)).
  Qed.

  (** Assigning a flat area with higher ground around it. *)
  Lemma assign_spec (a : xy) (closest : gmap pte pte) s :
    inv s -> shelf a ->
    (forall k t, closest !! k = Some t -> same_flat m a (pt_xy k) /\ higher_rim m a (pt_xy t)) ->
    match assign_flat closest s with
    | Err e => e = KeyError /\ exists t, higher_rim m a t /\ cs_table s !! t = None
    | Ok s' => inv s' /\ ext (elev m a) s s' /\ cs_log s' = cs_log s /\
        (forall k t, closest !! k = Some t -> is_Some (cs_table s' !! pt_xy k))
    end.
  Proof.
    intros Hi Hsh Hcl. unfold assign_flat.
    assert (Hl : forall kv, kv ∈ map_to_list closest ->
      same_flat m a (pt_xy kv.1) /\ higher_rim m a (pt_xy kv.2)).
    { intros [k t] H%elem_of_map_to_list. by apply Hcl. }
    assert (Hk : forall k t, closest !! k = Some t -> (k, t) ∈ map_to_list closest).
    { intros k t H. by apply elem_of_map_to_list. }
    assert (Hgoal : match foldM (fun (kv : pte * pte) s =>
      match cs_table s !! pt_xy kv.2 with
      | None => Err KeyError
      | Some d => Ok (CS (<[pt_xy kv.1 := d]> (cs_table s)) (cs_log s))
      end) (map_to_list closest) s with
      | Err e => e = KeyError /\ exists t, higher_rim m a t /\ cs_table s !! t = None
      | Ok s' => inv s' /\ ext (elev m a) s s' /\ cs_log s' = cs_log s /\
         (forall kv, kv ∈ map_to_list closest -> is_Some (cs_table s' !! pt_xy kv.1)) end).
    { clear Hcl Hk. revert s Hi. induction (map_to_list closest) as [|[k t] l IH]; intros s Hi; cbn [foldM].
      - split_and!; [done|apply ext_refl|done|]. intros kv H. by apply elem_of_nil in H.
      - destruct (Hl (k, t) ltac:(by left)) as [Hk Ht]. cbn [fst snd] in *.
        destruct (cs_table s !! pt_xy t) as [d|] eqn:Et; cbn [rbind]; [|split; eauto].
        assert (Hka : elev m (pt_xy k) = elev m a) by (symmetry; by apply same_flat_elev).
        assert (Hshk : shelf (pt_xy k)).
        { destruct Hsh as [(c' & Hc' & Hne) (q & Hq)]. split.
          - destruct (decide (pt_xy k = a)) as [->|Hka']; [by exists c'|].
            exists a. split; [by apply same_flat_sym|done].
          - exists q. by eapply higher_rim_flat. }
        assert (Hnp : ~ peak m (pt_xy k)).
        { intros [_ Hp]. destruct Hshk as [_ [q Hq]]. by apply (Hp q). }
        set (s' := CS _ _).
        assert (Hi' : inv s').
        { destruct Hi as [S1 O1 L1 P1]. split.
          - intros c e. cbn. rewrite lookup_insert_Some. intros [[<- <-]|[Hne H]]; [|by apply S1].
            destruct (S1 _ _ Et) as (t' & Ht' & Hut). exists t'. split; [done|].
            eapply uphill_trans; [|done]. destruct Ht as (Htd & Hlt & c & Hc & Hadj).
            eapply uphill_step; [|done|done|].
            + apply uphill_flat. eapply same_flat_trans; [by apply same_flat_sym|done].
            + rewrite <-(same_flat_elev _ _ _ Hc). lia.
          - done.
          - intros d' c Hin. cbn. destruct (L1 d' c Hin) as [H|[H H']].
            + destruct (decide (c = pt_xy k)) as [->|Hne].
              * right. split; [rewrite lookup_insert; by eexists|done].
              * left. by rewrite lookup_insert_ne.
            + right. split; [|done]. apply lookup_insert_is_Some'. by right.
          - intros d' t' Hd Hp. cbn. rewrite lookup_insert_ne; [by apply P1|]. by intros <-. }
        assert (He' : ext (elev m a) s s').
        { split.
          - intros c H. cbn. apply lookup_insert_is_Some'. by right.
          - intros c. cbn. destruct (decide (c = pt_xy k)) as [->|Hne]; [lia|].
            by rewrite lookup_insert_ne.
          - exists []. rewrite app_nil_r. split; [done|]. intros ? ? H. by apply elem_of_nil in H. }
        specialize (IH ltac:(intros kv Hkv; apply Hl; by right) s' Hi').
        destruct (foldM _ l s') as [s2|e].
        + destruct IH as (I2 & E2 & L2 & K2). split_and!; [done|by eapply ext_trans|done|].
          intros kv [->|Hkv]%elem_of_cons; [|by apply K2]. cbn. apply (e_mono _ _ _ E2).
          cbn. rewrite lookup_insert. by eexists.
        + destruct IH as (He & t2 & Ht2 & Hn2). split; [done|]. exists t2. split; [done|].
          destruct (cs_table s !! t2) eqn:E; [|done].
          destruct (e_mono _ _ _ He' t2 ltac:(by rewrite E)) as [? H]. congruence. }
    destruct (foldM _ _ s) as [s'|e]; [|done].
    destruct Hgoal as (I2 & E2 & L2 & K2). split_and!; try done.
    intros k t H. by apply (K2 (k, t)), Hk.
  Qed.

  Lemma climb_loop_spec fuel : forall cur climbed s lo,
    inv s -> data_cell m (pt_xy cur) -> pt_e cur = elev m (pt_xy cur) ->
    cs_table s !! pt_xy cur = None -> pt_xy cur ∈ climbed -> NoDup climbed ->
    (forall c, c ∈ climbed -> lo <= elev m c /\ elev m c <= pt_e cur /\
       cs_table s !! c = None /\ uphill m c (pt_xy cur)) ->
    (above m (pt_e cur) < fuel)%nat ->
    match climb_loop near m fuel cur climbed s with
    | Err e => e <> OutOfFuel /\ ~ complete s
    | Ok (r, s') => inv s' /\ ext lo s s' /\
        match r with
        | Some d => forall c, c ∈ climbed -> cs_table s' !! c = Some d
        | None => ~ complete s
        end
    end.
  Proof.
    induction fuel as [|fuel IH]; intros cur climbed s lo Hi Hd Hpe Hcn Hcc Hnd Hcl Hf; [lia|].
    cbn [climb_loop]. destruct cur as [[x y] e]. unfold pt_x, pt_y in *. cbn [fst snd] in *.
    unfold pt_xy, pt_e in Hd, Hpe, Hcn, Hcc, Hcl, Hf; cbn [fst snd] in *. 
    destruct (steepest_data m (x, y) Hup Hlow Hd) as (r & Hr & Hrs). cbn [fst snd] in Hr.
    rewrite Hr. cbn [rbind].
    destruct r as [[q eq]|].
    2:{ split_and!; [done|apply ext_refl|]. intros Hc. destruct (Hc _ Hrs) as [? H]. congruence. }
    destruct Hrs as (Ha & Hq & -> & Hle). unfold pt_xy at 1; cbn [fst].
    assert (Hnolog : forall c, cs_table s !! c = None -> forall d', (d', c) ∉ cs_log s).
    { intros c Hc d' Hin. destruct (i_listed _ Hi _ _ Hin) as [H|[[? H] _]]; congruence. }
    assert (Hnodom : forall c, cs_table s !! c = None -> peak m c -> forall d', ~ dom d' c).
    { intros c Hc Hp d' Hdom. pose proof (i_peak _ Hi _ _ Hdom Hp). congruence. }
    destruct (cs_table s !! q) as [d|] eqn:Eq.
    { apply extend_inv; [done|done|]. intros c Hc. destruct (Hcl c Hc) as (H1 & H2 & H3 & H4).
      split_and!; [done|by apply Hnolog|by apply Hnodom|].
      destruct (i_sound _ Hi _ _ Eq) as (t & Ht & Hu). exists t. split; [done|].
      eapply uphill_trans; [|done]. by eapply uphill_step. }
    change (pt_e (q, elev m q)) with (elev m q). change (pt_e (x, y, e)) with e.
    destruct (elev m q =? e) eqn:Ee.
    - (* flat area *)
      assert (elev m q = e) as Eqe by lia. clear Ee.
      destruct (equalHeightBlob_spec m q.1 q.2 Hok) as
        (b & Hb & Hbe & Hbnd & Hbp & Hpnd & Hper & _); [by destruct q|].
      replace (q.1, q.2) with q in * by (by destruct q).
      change (pt_x (q, elev m q)) with q.1. change (pt_y (q, elev m q)) with q.2.
      rewrite Hb. cbn [rbind]. rewrite Hbe.
      set (hp := findHighPerimeter (bl_perimeter b) (elev m q)).
      assert (Hhp : forall z, z ∈ hp <-> higher_rim m q (pt_xy z) /\ pt_e z = elev m (pt_xy z)).
      { intros [z ez]. unfold hp, findHighPerimeter. rewrite elem_of_list_filter, Hper.
        change (pt_e (z, ez)) with ez. change (pt_xy (z, ez)) with z.
        split; [intros [H1 H2]; done|]. intros [H1 ->]. split; [|done]. apply H1. }
      assert (Hqx : same_flat m q (x, y)).
      { eapply same_flat_step; [by apply same_flat_refl|done|by apply adj8_sym|lia]. }
      (* climbing from the higher points *)
      set (P := fun s1 => inv s1 /\ ext (e + 1) s s1).
      set (f := fun (p : pte) (s : climb_state) =>
        match cs_table s !! pt_xy p with
        | Some _ => Ok s
        | None => let* r := climb_loop near m fuel p [pt_xy p] s in Ok r.2
        end).
      assert (Hstep : forall p s1, p ∈ hp -> inv s1 -> ext (e + 1) s s1 ->
        match f p s1 with
        | Ok s2 => inv s2 /\ ext (e + 1) s1 s2 /\ (complete s -> is_Some (cs_table s2 !! pt_xy p))
        | Err ex => ex <> OutOfFuel /\ ~ complete s
        end).
      { intros p s1 Hp I1 E1. unfold f. destruct (cs_table s1 !! pt_xy p) as [d0|] eqn:Ep.
        { split_and!; [done|apply ext_refl|]. intros _. rewrite Ep. by eexists. }
        apply Hhp in Hp as [Hp Hpe']. pose proof Hp as (Hpd & Hplt & _).
        specialize (IH p [pt_xy p] s1 (e + 1) I1 Hpd Hpe' Ep ltac:(by left) ltac:(apply NoDup_singleton)).
        assert (above m (pt_e p) < above m e)%nat as Hab.
        { rewrite Hpe'. apply above_lt; [apply Hpd|lia]. }
        specialize (IH ltac:(intros c ->%elem_of_list_singleton; split_and!; [lia|lia|done|by apply uphill_refl])
          ltac:(lia)).
        destruct (climb_loop near m fuel p [pt_xy p] s1) as [[r s2]|ex]; cbn [rbind snd].
        - destruct IH as (I2 & E2 & R2). split_and!; [done|done|].
          intros Hc. destruct r as [d0|].
          + rewrite (R2 (pt_xy p) ltac:(by left)). by eexists.
          + exfalso. apply R2. by eapply ext_complete.
        - destruct IH as [H1 H2]. split; [done|]. intros Hc. apply H2. by eapply ext_complete. }
      assert (Hfold : match foldM f hp s with
        | Ok s1 => inv s1 /\ ext (e + 1) s s1 /\
            (complete s -> forall p, p ∈ hp -> is_Some (cs_table s1 !! pt_xy p))
        | Err ex => ex <> OutOfFuel /\ ~ complete s end).
      { assert (Hgen : forall l s1, (forall p, p ∈ l -> p ∈ hp) -> inv s1 -> ext (e + 1) s s1 ->
          match foldM f l s1 with
          | Ok s2 => inv s2 /\ ext (e + 1) s1 s2 /\
            (complete s -> forall p, p ∈ l -> is_Some (cs_table s2 !! pt_xy p))
          | Err ex => ex <> OutOfFuel /\ ~ complete s end).
        { induction l as [|p l IHl]; intros s1 Hl I1 E1; cbn [foldM].
          - split_and!; [done|apply ext_refl|]. intros _ p Hp. by apply elem_of_nil in Hp.
          - pose proof (Hstep p s1 ltac:(apply Hl; by left) I1 E1) as H1.
            destruct (f p s1) as [s2|ex]; cbn [rbind]; [|done].
            destruct H1 as (I2 & E2 & R2).
            specialize (IHl s2 ltac:(intros p' Hp'; apply Hl; by right) I2 ltac:(by eapply ext_trans)).
            destruct (foldM f l s2) as [s3|ex]; [|done]. destruct IHl as (I3 & E3 & R3).
            split_and!; [done|by eapply ext_trans|].
            intros Hc p' [->|Hp']%elem_of_cons; [|by apply R3].
            apply (e_mono _ _ _ E3). by apply R2. }
        apply Hgen; [done|done|apply ext_refl]. }
      change (foldM _ hp s) with (foldM f hp s).
      destruct (foldM f hp s) as [s1|ex]; cbn [rbind]; [|done].
      destruct Hfold as (I1 & E1 & R1).
      destruct (decide (hp = [])) as [Ehp|Ehp].
      + (* no higher ground: the area is an unregistered peak *)
        assert (Hnc : ~ complete s).
        { intros Hc. destruct (Hc q) as [? H]; [|congruence]. split; [done|].
          intros z Hz. assert ((z, elev m z) ∈ hp) as Hin by (by apply Hhp).
          rewrite Ehp in Hin. by apply elem_of_nil in Hin. }
        rewrite Ehp in *.
        destruct (ss_none _ _ Hnear (map (fun c => (c, elev m q)) (bl_points b))) as [->| ->]; cbn [rbind]; [|split; [done|done]].
        unfold assign_flat. rewrite map_to_list_empty. cbn [foldM rbind].
        cbn [foldM] in E1.
        destruct (cs_table s1 !! pt_xy (q, elev m q)) as [d|] eqn:Ed; [|done].
        exfalso. unfold pt_xy in Ed; cbn in Ed.
        assert (e + 1 <= elev m q); [|lia]. apply (e_lo _ _ _ E1). congruence.
      + assert (Hb1 : forall p, p ∈ map (fun c => (c, elev m q)) (bl_points b) -> in_map m (pt_xy p)).
        { intros p Hp. apply elem_of_list_fmap in Hp as (c & -> & Hc). apply Hbp in Hc. apply (same_flat_data_r _ _ _ Hc). }
        assert (Hb2 : forall t, t ∈ hp -> in_map m (pt_xy t)).
        { intros z Hz. destruct (proj1 (Hhp z) Hz) as [Hz' _]. apply Hz'. }
        destruct (ss_map _ _ Hnear (map (fun c => (c, elev m q)) (bl_points b)) hp Hb1 Hb2 Ehp)
          as (cl & Hcl' & Hcl1 & Hcl2).
        { intros p t Hp Ht. apply Hreach; auto. }
        rewrite Hcl'. cbn [rbind].
        assert (Hclq : forall k t, cl !! k = Some t -> same_flat m q (pt_xy k) /\ higher_rim m q (pt_xy t)).
        { intros k t Hkt. destruct (decide (k ∈ map (fun c => (c, elev m q)) (bl_points b))) as [Hin|Hin].
          - destruct (Hcl1 k Hin) as (t' & Ht' & Hin'). assert (t' = t) as -> by congruence.
            apply elem_of_list_fmap in Hin as (c & -> & Hc). apply Hbp in Hc.
            split; [done|]. by apply Hhp.
          - rewrite Hcl2 in Hkt by done. done. }
        assert (Hshelf : shelf q).
        { split.
          - exists (x, y). split; [done|]. intros E. destruct Ha as [Hne _]. by apply Hne.
          - destruct hp as [|z hp'] eqn:E; [done|]. exists (pt_xy z).
            by apply (Hhp z); left. }
        pose proof (assign_spec q cl s1 I1 Hshelf Hclq) as Has.
        destruct (assign_flat cl s1) as [s2|ex]; cbn [rbind].
        2:{ destruct Has as (-> & t & Ht & Hn). split; [done|]. intros Hc.
            destruct (R1 Hc (t, elev m t)) as [? H]; [by apply Hhp|]. cbn in H. congruence. }
        destruct Has as (I2 & E2 & L2 & K2).
        assert (Hclx : forall c, same_flat m q c -> is_Some (cs_table s2 !! c)).
        { intros c Hc. destruct (Hcl1 (c, elev m q)) as (t & Ht & _).
          - apply elem_of_list_fmap. exists c. split; [done|]. by apply Hbp.
          - by apply (K2 _ _ Ht). }
        unfold pt_xy at 1; cbn [fst].
        destruct (Hclx q (same_flat_refl _ _ Hq)) as [d Ed]. rewrite Ed.
        destruct (extend_inv lo d climbed s2 I2 Hnd) as (I3 & E3 & R3).
        { intros c Hc. destruct (Hcl c Hc) as (H1 & H2 & H3 & H4).
          split_and!; [done| | |].
          - rewrite L2. intros d' Hin. destruct (e_log _ _ _ E1) as (xs & Hxs & Hlo).
            rewrite Hxs in Hin. apply elem_of_app in Hin as [Hin|Hin].
            + by apply (Hnolog c H3 d').
            + specialize (Hlo _ _ Hin). lia.
          - by apply Hnodom.
          - destruct (i_sound _ I2 _ _ Ed) as (t & Ht & Hu). exists t. split; [done|].
            eapply uphill_trans; [|done]. by eapply uphill_step. }
        split_and!; [done| |done].
        assert (lo <= e) by (destruct (Hcl _ Hcc); lia).
        eapply ext_trans; [|done]. eapply ext_trans.
        * eapply (ext_weaken (e + 1)); [lia|done].
        * eapply (ext_weaken (elev m q)); [lia|done].
    - (* one step up *)
      assert (e < elev m q) by lia.
      specialize (IH (q, elev m q) (climbed ++ [q]) s lo Hi). cbn in IH.
      assert (Hqn : q ∉ climbed).
      { intros Hin. destruct (Hcl q Hin) as (_ & H2 & _). lia. }
      specialize (IH Hq eq_refl Eq ltac:(apply elem_of_app; right; by left)).
      assert (NoDup (climbed ++ [q])) as Hnd'.
      { apply NoDup_app. split_and!; [done| |apply NoDup_singleton].
        intros c Hc ->%elem_of_list_singleton. done. }
      specialize (IH Hnd').
      assert (Hab : (above m (elev m q) < above m e)%nat) by (apply above_lt; [apply Hq|lia]).
      unshelve epose proof (IH _ _) as H2; [|unfold pt_e; cbn; lia|].
      { intros c [Hc| ->%elem_of_list_singleton]%elem_of_app.
        - destruct (Hcl c Hc) as (H1 & H2 & H3 & H4). unfold pt_e; cbn. split_and!; [done|lia|done|].
          by eapply uphill_step.
        - unfold pt_e; cbn. destruct (Hcl _ Hcc) as (H1 & _).
          split_and!; [lia|lia|done|by apply uphill_refl]. }
      change (pt_xy (q, elev m q)) with q.
      destruct (climb_loop near m fuel (q, elev m q) (climbed ++ [q]) s) as [[r s']|ex]; [|done].
      destruct H2 as (I2 & E2 & R2). split_and!; [done|done|].
      destruct r as [d|]; [|done]. intros c Hc. apply R2. apply elem_of_app. by left.
  Qed.

  Lemma climb_spec p s :
    inv s -> data_cell m p ->
    match climb near m (p, elev m p) s with
    | Err e => e <> OutOfFuel /\ ~ complete s
    | Ok (r, s') => inv s' /\ ext (elev m p) s s' /\
        match r with
        | Some d => cs_table s' !! p = Some d
        | None => ~ complete s
        end
    end.
  Proof.
    intros Hi Hd. unfold climb. unfold pt_xy at 1; cbn [fst].
    destruct (cs_table s !! p) as [d|] eqn:E.
    - split_and!; [done|apply ext_refl|done].
    - pose proof (climb_loop_spec (climb_fuel m) (p, elev m p) [p] s (elev m p) Hi Hd eq_refl E
        ltac:(by left) ltac:(apply NoDup_singleton)) as H.
      unshelve epose proof (H _ _) as H2.
      + intros c ->%elem_of_list_singleton. unfold pt_e; cbn.
        split_and!; [lia|lia|done|by apply uphill_refl].
      + by apply above_fuel.
      + change (pt_xy (p, elev m p)) with p.
        destruct (climb_loop _ _ _ _ _ _) as [[r s']|e]; [|done].
        destruct H2 as (I2 & E2 & R2). split_and!; [done|done|]. destruct r; [|done].
        apply R2. by left.
  Qed.

  Lemma walked_inv s0 s : inv s0 -> walked near m s0 s -> inv s /\ (complete s0 -> complete s).
  Proof.
    intros Hi. induction 1 as [|s p r s' Hw [IH1 IH2] Hd Hc]; [done|].
    pose proof (climb_spec p s IH1 Hd) as H. rewrite Hc in H. destruct H as (I2 & E2 & _).
    split; [done|]. intros H0. eapply ext_complete; eauto.
  Qed.
End climb.
