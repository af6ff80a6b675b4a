(** Proofs about perimeters. *)
From Verif Require Import Perimeter_model Perimeter_spec Raster_spec Contig_proof Raster_proof.
Local Open Scope Z_scope.

Lemma index_spec points c q : index_of points !! c = Some q <-> pt_xy q = c /\ last_at points q.
Proof.
  unfold index_of. assert (forall t : gmap xy pte, foldl (fun t p => <[pt_xy p := p]> t) t points !! c = Some q <->
    (pt_xy q = c /\ last_at points q) \/ (t !! c = Some q /\ Forall (fun r => pt_xy r <> c) points)) as H.
  { induction points as [|p points IH]; intros t; cbn [foldl].
    - split; [by right|]. intros [[_ (l1 & l2 & E & _)]|[E _]]; [by destruct l1|done].
    - rewrite IH. split.
      + intros [[Ec (l1 & l2 & -> & Hf)]|[E Hf]]; [left; split; [done|]; by exists (p :: l1), l2|].
        destruct (decide (pt_xy p = c)) as [Ep|Hne].
        * rewrite Ep, lookup_insert in E. injection E as <-. left. split; [done|]. exists [], points. by rewrite Ep.
        * rewrite lookup_insert_ne in E by done. right. split; [done|]. by constructor.
      + intros [[Ec (l1 & l2 & E & Hf)]|[E Hf]].
        * destruct l1 as [|x l1]; injection E; intros; subst; [|left; split; [done|]; by exists l1, l2].
          right. split; [apply lookup_insert|done].
        * apply Forall_cons in Hf as [Hne Hf]. right. split; [by rewrite lookup_insert_ne|done]. }
  rewrite H. split; [|by left]. by intros [?|[? _]].
Qed.

Lemma shifts_spec points shifts p l : NoDup shifts -> iter_shifts (per_new points) shifts p = Ok l ->
  NoDup l /\ forall q, q ∈ l <-> last_at points q /\ (pt_x q - pt_x p, pt_y q - pt_y p) ∈ shifts.
Proof.
  intros Hnd E. unfold iter_shifts in E. assert (per_index (per_new points) = Some (index_of points)) as Hi.
  { destruct points; [done|done]. }
  rewrite Hi in E. injection E as <-.
  assert (forall q, q ∈ omap (fun s : Z * Z => index_of points !! (pt_x p + s.1, pt_y p + s.2)) shifts <->
    last_at points q /\ (pt_x q - pt_x p, pt_y q - pt_y p) ∈ shifts) as Hel.
  { intros q. rewrite elem_of_list_omap. split.
    - intros ([a b] & Hs & Eq). apply index_spec in Eq as [E Hl]. split; [done|]. cbn in E.
      replace (pt_x q - pt_x p, pt_y q - pt_y p) with (a, b); [done|].
      unfold pt_xy, pt_x, pt_y in *. destruct q as [[x y] e]. cbn in *. injection E as -> ->. f_equal; lia.
    - intros [Hl Hs]. eexists. split; [exact Hs|]. apply index_spec. split; [|done]. cbn.
      unfold pt_xy, pt_x, pt_y. destruct q as [[x y] e]. cbn. f_equal; lia. }
  split; [|done]. clear Hel. induction Hnd as [|s l Hs Hnd IH]; [constructor|]. cbn.
  destruct (index_of points !! _) as [q|] eqn:Eq; [|done]. constructor; [|done].
  rewrite elem_of_list_omap. intros ([a b] & Hin & Eq2). apply index_spec in Eq as [E1 _]. apply index_spec in Eq2 as [E2 _].
  apply Hs. destruct s as [c d]. cbn in *. rewrite E1 in E2. injection E2 as E3 E4.
  replace c with a by lia. by replace d with b by lia.
Qed.
Lemma full_adj p q : (pt_x q - pt_x p, pt_y q - pt_y p) ∈ FULL_SHIFT_LIST <-> adj8 (pt_xy p) (pt_xy q).
Proof.
  unfold adj8, FULL_SHIFT_LIST, pt_xy, pt_x, pt_y. destruct p as [[x y] e], q as [[x' y'] e']. cbn.
  rewrite !elem_of_cons, elem_of_nil. split.
  - intros H. split; [intros [= -> ->]|]; repeat destruct H as [H|H]; try done; injection H; lia.
  - intros (Hne & H1 & H2).
    assert (x' - x = -1 \/ x' - x = 0 \/ x' - x = 1) as Hx by lia. assert (y' - y = -1 \/ y' - y = 0 \/ y' - y = 1) as Hy by lia.
    destruct Hx as [-> | [Ex| ->]], Hy as [-> | [Ey| ->]]; rewrite ?Ex, ?Ey; try tauto.
    destruct Hne. f_equal; lia.
Qed.
Lemma orthogonal_adj p q : (pt_x q - pt_x p, pt_y q - pt_y p) ∈ ORTHOGONAL_SHIFT_LIST <-> adj4 (pt_xy p) (pt_xy q).
Proof.
  unfold adj4, ORTHOGONAL_SHIFT_LIST, pt_xy, pt_x, pt_y. destruct p as [[x y] e], q as [[x' y'] e']. cbn.
  rewrite !elem_of_cons, elem_of_nil. split.
  - intros H. repeat destruct H as [H|H]; try done; injection H; lia.
  - intros H.
    assert ((x' - x = 0 /\ y' - y = -1) \/ (x' - x = 0 /\ y' - y = 1) \/ (x' - x = -1 /\ y' - y = 0) \/ (x' - x = 1 /\ y' - y = 0)) as Hx by lia.
    destruct Hx as [[-> ->]|[[-> ->]|[[-> ->]|[-> ->]]]]; tauto.
Qed.
Lemma iter_ok points shifts p : points <> [] -> exists l, iter_shifts (per_new points) shifts p = Ok l.
Proof. unfold iter_shifts. destruct points; [done|]. intros _. by eexists. Qed.

Lemma neighbors_spec points p : points <> [] ->
  (exists l, iterNeighborFull (per_new points) p = Ok l /\ NoDup l /\
    forall q, q ∈ l <-> last_at points q /\ adj8 (pt_xy p) (pt_xy q)) /\
  (exists l, iterNeighborOrthogonal (per_new points) p = Ok l /\ NoDup l /\
    forall q, q ∈ l <-> last_at points q /\ adj4 (pt_xy p) (pt_xy q)) /\
  iterNeighborOrthogonalDiagonal (per_new points) p = iterNeighborOrthogonal (per_new points) p.
Proof.
  intros Hne. split; [|split; [|done]].
  - destruct (iter_ok points FULL_SHIFT_LIST p Hne) as [l E]. exists l. split; [done|].
    apply shifts_spec in E as [H1 H2]; [|by apply (bool_decide_unpack _); vm_compute].
    split; [done|]. intros q. by rewrite H2, full_adj.
  - destruct (iter_ok points ORTHOGONAL_SHIFT_LIST p Hne) as [l E]. exists l. split; [done|].
    apply shifts_spec in E as [H1 H2]; [|by apply (bool_decide_unpack _); vm_compute].
    split; [done|]. intros q. by rewrite H2, orthogonal_adj.
Qed.

Lemma high_spec per e q : q ∈ findHighPerimeter per e <-> q ∈ per_points per /\ e < pt_e q.
Proof. unfold findHighPerimeter. rewrite elem_of_list_filter. tauto. Qed.
Lemma high_order per e : sublist (findHighPerimeter per e) (per_points per).
Proof.
  unfold findHighPerimeter. induction (per_points per) as [|x l IH]; [constructor|]. rewrite filter_cons. case_decide; by constructor.
Qed.
Lemma high_groups orc per e :
  (forall p, p ∈ per_points per -> 0 <= pt_x p /\ 0 <= pt_y p) ->
  (forall p q, p ∈ per_points per -> q ∈ per_points per -> pt_xy p = pt_xy q -> p = q) ->
  exists groups, findHighPerimeterNeighborhoods orc per e = Ok groups /\
    (forall g, g ∈ groups -> g <> []) /\ NoDup (concat groups) /\
    (forall q, q ∈ concat groups <-> q ∈ per_points per /\ e < pt_e q) /\
    forall i j g h a b, groups !! i = Some g -> groups !! j = Some h -> a ∈ g -> b ∈ h ->
      (i = j <-> linked (fun p q => adj8 (pt_xy p) (pt_xy q)) (fun q => q ∈ per_points per /\ e < pt_e q) a b).
Proof.
  intros Hnn Hfun. destruct (contiguous_neighbors_spec orc (findHighPerimeter per e)) as (gs & E & Hp & Hne & Hl).
  { intros p Hp. apply high_spec in Hp as [Hp _]. by apply Hnn. }
  { intros p q Hp Hq. apply high_spec in Hp as [Hp _]. apply high_spec in Hq as [Hq _]. by apply Hfun. }
  exists gs. split; [done|]. split; [done|]. split; [rewrite Hp; apply NoDup_remove_dups|]. split.
  - intros q. rewrite Hp, elem_of_remove_dups. apply high_spec.
  - intros i j g h a b Hi Hj Ha Hb. rewrite (Hl i j g h a b) by done. split; apply linked_mono; try done; intros x Hx; by apply high_spec.
Qed.
