(** Proofs about loading a whole map. *)
From Verif Require Import Persist_model Persist_spec Container_spec Container_proof Persist_proof.
Local Open Scope Z_scope.

(** ** Lists of values *)
Lemma write_all_spec {A} (f : A -> res val) l vs : write_all f l = Ok vs <-> Forall2 (fun a v => f a = Ok v) l vs.
Proof.
  revert vs. induction l as [|a l IH]; intros vs; cbn.
  - split; [intros [= <-]; constructor|]. by inversion 1.
  - destruct (f a) as [v|] eqn:E; cbn.
    + destruct (write_all f l) as [r|] eqn:Er; cbn.
      * split; [intros [= <-]; constructor; [done|by apply IH]|]. inversion 1 as [|? v' ? r' H1 H2]; subst. apply IH in H2. congruence.
      * split; [done|]. inversion 1 as [|? v' ? r' H1 H2]; subst. apply IH in H2. done.
    + split; [done|]. inversion 1; congruence.
Qed.
Lemma write_all_ok {A} (f : A -> res val) l : (exists vs, write_all f l = Ok vs) <-> forall a, a ∈ l -> exists v, f a = Ok v.
Proof.
  split.
  - intros [vs H]. apply write_all_spec in H. intros a Ha. apply elem_of_list_lookup in Ha as [i Hi].
    destruct (Forall2_lookup_l _ _ _ _ _ H Hi) as (v & _ & Hv). by exists v.
  - induction l as [|a l IH]; intros H; [by exists []|]. destruct (H a) as [v Hv]; [by left|]. destruct IH as [vs Hvs]; [intros b Hb; apply H; by right|].
    exists (v :: vs). cbn. rewrite Hv. cbn. by rewrite Hvs.
Qed.
(** Reading back what was written, if each member can be read or not. *)
Lemma read_written {A B} (w : A -> res val) (r : val -> res B) (good : A -> bool) (back : A -> B) l vs :
  (forall a v, w a = Ok v -> r v = if good a then Ok (back a) else Err TypeError) ->
  write_all w l = Ok vs -> read_all r vs = if forallb good l then Ok (map back l) else Err TypeError.
Proof.
  intros H Hw. apply write_all_spec in Hw. induction Hw as [|a v l vs Ha Hl IH]; [done|].
  cbn [read_all forallb map]. rewrite (H a v Ha). destruct (good a); [|done]. cbn. rewrite IH. by destruct (forallb good l).
Qed.

(** ** Objects by id *)
Section objects.
  Context {A : Type}.
  Implicit Types l : list (string * A).
  Lemma obj_some k a l : obj k l = Some a -> (k, a) ∈ l.
  Proof.
    induction l as [|[i w] l IH]; cbn; [done|]. destruct (obj k l) as [c|].
    - intros [= ->]. right. by apply IH.
    - destruct (decide (k = i)) as [->|]; [|done]. intros [= ->]. by left.
  Qed.
  Lemma obj_none k l : obj k l = None <-> k ∉ map fst l.
  Proof.
    induction l as [|[i w] l IH]; cbn; [split; [intros _; apply not_elem_of_nil|done]|].
    rewrite not_elem_of_cons. destruct (obj k l) as [c|].
    - split; [done|]. intros [_ H]. by apply IH in H.
    - destruct (decide (k = i)) as [->|Hn]; [naive_solver|]. naive_solver.
  Qed.
  Lemma obj_same k a l : (forall b c, (k, b) ∈ l -> (k, c) ∈ l -> b = c) -> obj k l = Some a <-> (k, a) ∈ l.
  Proof.
    intros H. split; [apply obj_some|]. intros Hin. destruct (obj k l) as [b|] eqn:E.
    - apply obj_some in E. f_equal. by apply H.
    - apply obj_none in E. destruct E. apply elem_of_list_fmap. by exists (k, a).
  Qed.
  Lemma nodup_same k a b (l : list (string * A)) : NoDup (map fst l) -> (k, a) ∈ l -> (k, b) ∈ l -> a = b.
  Proof.
    induction l as [|[i w] l IH]; cbn; intros Hd; [by intros []%elem_of_nil|]. apply NoDup_cons in Hd as [H1 H2].
    intros Ha Hb. apply elem_of_cons in Ha, Hb. destruct Ha as [Ha|Ha], Hb as [Hb|Hb].
    - congruence.
    - injection Ha as -> ->. destruct H1. apply elem_of_list_fmap. by exists (i, b).
    - injection Hb as -> ->. destruct H1. apply elem_of_list_fmap. by exists (i, a).
    - by apply IH.
  Qed.
  Lemma obj_in k a l : NoDup (map fst l) -> obj k l = Some a <-> (k, a) ∈ l.
  Proof. intros Hd. apply obj_same. intros b c. by apply nodup_same. Qed.
  Lemma need_ok k l : (if decide (k ∈ map fst l) then exists a, need k l = Ok a else need k l = Err KeyError).
  Proof.
    unfold need. destruct (decide (k ∈ map fst l)) as [H|H].
    - destruct (obj k l) as [a|] eqn:E; [by exists a|]. apply obj_none in E. done.
    - apply obj_none in H. by rewrite H.
  Qed.
  Lemma change_ids k f l : map fst (change k f l) = map fst l.
  Proof. induction l as [|[i a] l IH]; [done|]. cbn. destruct (decide _); cbn; [done|by rewrite IH]. Qed.
  Lemma change_change k f g l : change k g (change k f l) = change k (fun a => g (f a)) l.
  Proof.
    induction l as [|[i a] l IH]; [done|]. cbn. destruct (decide (k = i /\ k ∉ map fst l)) as [H|H]; cbn; rewrite ?change_ids.
    - by rewrite decide_True.
    - rewrite decide_False by done. by rewrite IH.
  Qed.
  Lemma change_id k l : change k (fun a => a) l = l.
  Proof. induction l as [|[i a] l IH]; [done|]. cbn. destruct (decide _); [done|by rewrite IH]. Qed.
  Lemma change_ext k f g l : (forall a, f a = g a) -> change k f l = change k g l.
  Proof. intros H. induction l as [|[i a] l IH]; [done|]. cbn. destruct (decide _); [by rewrite H|by rewrite IH]. Qed.
  Lemma change_other k f l : k ∉ map fst l -> change k f l = l.
  Proof.
    induction l as [|[i a] l IH]; [done|]. cbn. intros [H1 H2]%not_elem_of_cons. rewrite decide_False by (by intros [-> _]).
    by rewrite IH.
  Qed.
  Lemma change_nodup k f l : NoDup (map fst l) -> change k f l = map (fun e => if decide (k = e.1) then (e.1, f e.2) else e) l.
  Proof.
    induction l as [|[i a] l IH]; [done|]. cbn. intros [H1 H2]%NoDup_cons. destruct (decide (k = i)) as [->|Hn].
    - rewrite decide_True by done. f_equal. rewrite <-(map_id l) at 1. apply map_ext_in. intros e Hin%elem_of_list_In.
      rewrite decide_False; [done|]. intros ->. destruct H1. apply elem_of_list_fmap. by exists e.
    - rewrite decide_False by (by intros [-> _]). by rewrite IH.
  Qed.
  (** A loop that adds references to one object, all of which must exist. *)
  Lemma refs_fold (add : string -> A -> A) k refs l :
    foldM (fun c l => let* _ := need c l in Ok (change k (add c) l)) refs l =
    if decide (Forall (fun c => c ∈ map fst l) refs) then Ok (change k (fun a => foldl (fun a c => add c a) a refs) l) else Err KeyError.
  Proof.
    revert l. induction refs as [|c refs IH]; intros l; cbn [foldM foldl].
    - rewrite decide_True by constructor. by rewrite change_id.
    - pose proof (need_ok c l) as Hc. destruct (decide (c ∈ map fst l)) as [H|H].
      + destruct Hc as [a ->]. cbn [rbind]. rewrite IH, change_ids, change_change.
        destruct (decide (Forall _ refs)) as [H2|H2]; [by rewrite decide_True by (by constructor)|].
        rewrite decide_False; [done|]. by intros [_ ?]%Forall_cons.
      + rewrite Hc, decide_False; [done|]. by intros [? _]%Forall_cons.
  Qed.
  (** One change for each listed object. *)
  Lemma change_each {B} (g : B -> A -> A) (L : list (string * B)) l : NoDup (map fst l) ->
    foldl (fun l e => change e.1 (g e.2) l) l L =
    map (fun x => (x.1, foldl (fun a e => if decide (e.1 = x.1) then g e.2 a else a) x.2 L)) l.
  Proof.
    revert l. induction L as [|e L IH]; intros l Hd; cbn [foldl].
    - rewrite <-(map_id l) at 1. apply map_ext. by intros [].
    - rewrite IH by (by rewrite change_ids). rewrite change_nodup by done. rewrite map_map. apply map_ext. intros x. by destruct (decide (e.1 = x.1)).
  Qed.
  Lemma foldl_one {B} (g : B -> A -> A) (L : list (string * B)) i b a : NoDup (map fst L) -> (i, b) ∈ L ->
    foldl (fun a e => if decide (e.1 = i) then g e.2 a else a) a L = g b a.
  Proof.
    assert (forall L (a : A), i ∉ map fst L -> foldl (fun a (e : string * B) => if decide (e.1 = i) then g e.2 a else a) a L = a) as Hno.
    { clear L a. induction L as [|e L IH]; intros a Hn; [done|]. cbn in Hn. apply not_elem_of_cons in Hn as [Hn1 Hn2]. cbn [foldl].
      rewrite decide_False by congruence. by apply IH. }
    revert a. induction L as [|[j c] L IH]; intros a Hd Hin; [by apply elem_of_nil in Hin|]. cbn in Hd. apply NoDup_cons in Hd as [Hd1 Hd2].
    apply elem_of_cons in Hin as [[= <- <-]|Hin]; cbn [foldl fst snd].
    - rewrite decide_True by done. by apply Hno.
    - assert (i ∈ map fst L) by (apply elem_of_list_fmap; by exists (i, b)). rewrite decide_False by (intros ->; done). by apply IH.
  Qed.
End objects.
Lemma change_all {A B} (g h : B -> A -> A) (k : B -> A) (L : list (string * B)) : NoDup (map fst L) ->
  foldl (fun l e => change e.1 (g e.2) l) (map (fun e => (e.1, k e.2)) L) L = map (fun e => (e.1, g e.2 (k e.2))) L.
Proof.
  intros Hd. rewrite change_each by (rewrite map_map; exact Hd). rewrite map_map. apply map_ext_in. intros [i b] Hin%elem_of_list_In. cbn [fst snd]. by rewrite (foldl_one g L i b).
Qed.
Lemma obj_map {A B} (f : string -> A -> B) k (l : list (string * A)) : obj k (map (fun e => (e.1, f e.1 e.2)) l) = f k <$> obj k l.
Proof. induction l as [|[i a] l IH]; cbn; [done|]. rewrite IH. destruct (obj k l); cbn; [done|]. by destruct (decide (k = i)) as [->|]. Qed.
Lemma obj_app {A} k (l1 l2 : list (string * A)) : obj k (l1 ++ l2) = match obj k l2 with Some a => Some a | None => obj k l1 end.
Proof. induction l1 as [|[i a] l1 IH]; cbn; [by destruct (obj k l2)|]. rewrite IH. by destruct (obj k l2). Qed.
Lemma change_map {A B} (f g : string -> A -> B) k h (l : list (string * A)) : NoDup (map fst l) ->
  (forall i a, (i, a) ∈ l -> (if decide (k = i) then h (f i a) else f i a) = g i a) ->
  change k h (map (fun e => (e.1, f e.1 e.2)) l) = map (fun e => (e.1, g e.1 e.2)) l.
Proof.
  intros Hd H. rewrite change_nodup by (rewrite map_map; exact Hd). rewrite map_map. apply map_ext_in. intros [i a] Hin%elem_of_list_In.
  cbn [fst snd]. rewrite <-(H i a Hin). by destruct (decide (k = i)).
Qed.
(** The last object of each id is changed to [f], earlier copies to [g]. *)
Fixpoint final {A B} (f : string -> A -> B) (g : A -> B) (l : list (string * A)) : list (string * B) :=
  match l with
  | [] => []
  | (i, a) :: l => (i, if decide (i ∈ map fst l) then g a else f i a) :: final f g l
  end.
Lemma final_ids {A B} (f : string -> A -> B) g l : map fst (final f g l) = map fst l.
Proof. induction l as [|[i a] l IH]; [done|]. cbn. by rewrite IH. Qed.
Lemma final_obj {A B} (f : string -> A -> B) g k l : obj k (final f g l) = f k <$> obj k l.
Proof.
  induction l as [|[i a] l IH]; [done|]. cbn. rewrite IH. destruct (obj k l) as [b|] eqn:E; [done|]. cbn.
  apply obj_none in E. destruct (decide (k = i)) as [->|]; [|done]. by rewrite decide_False.
Qed.
Lemma final_same {A B} (f : string -> A -> B) g l : (forall i a, f i a = g a) -> final f g l = map (fun e => (e.1, g e.2)) l.
Proof. intros H. induction l as [|[i a] l IH]; [done|]. cbn. rewrite IH, H. by destruct (decide _). Qed.
Lemma final_ext {A B} (f f' : string -> A -> B) g l : (forall i a, f i a = f' i a) -> final f g l = final f' g l.
Proof. intros H. induction l as [|[i a] l IH]; [done|]. cbn. by rewrite IH, H. Qed.
Lemma final_change {A B} (f f' : string -> A -> B) g k h l :
  (forall i a, (if decide (k = i) then h (f i a) else f i a) = f' i a) ->
  change k h (final f g l) = final f' g l.
Proof.
  intros H. induction l as [|[i a] l IH]; [done|]. cbn. rewrite final_ids. rewrite <-(H i a). destruct (decide (k = i)) as [->|Hn].
  - destruct (decide (i ∈ map fst l)) as [Hi|Hi].
    + rewrite decide_False by tauto. by rewrite IH.
    + rewrite decide_True by done. f_equal. clear IH.
      rewrite <-(change_other i h (final f g l)) by (by rewrite final_ids). clear - H Hi.
      induction l as [|[j b] l IH]; [done|]. cbn in *. apply not_elem_of_cons in Hi as [H1 H2]. rewrite decide_False by (by intros [? _]).
      rewrite IH by done. f_equal. f_equal. rewrite <-(H j b). by rewrite (decide_False (P := i = j)).
  - rewrite decide_False by (by intros [? _]). by rewrite IH.
Qed.
Lemma ids_map {A B} (f : string -> A -> B) (l : list (string * A)) : map fst (map (fun e => (e.1, f e.1 e.2)) l) = map fst l.
Proof. rewrite map_map. apply map_ext. done. Qed.

(** ** The family of a saddle *)
Definition with_family (s t : psaddle) : psaddle :=
  PSaddle (pa_at t) (pa_edge t) (pa_edgepts t) (pa_multi t) (pa_hpn t) (pa_links t)
    (match pa_parent s with Some p => Some p | None => pa_parent t end)
    (pa_children t ++ pa_children s) (pa_single t) (pa_basin t) (pa_alts t ++ pa_alts s) (pa_over t).
Definition family (s : psaddle) : list string := pa_children s ++ from_option (fun p => [p]) [] (pa_parent s) ++ pa_alts s.
Lemma fold_children l t : foldl (fun a c => add_child c a) t l =
  PSaddle (pa_at t) (pa_edge t) (pa_edgepts t) (pa_multi t) (pa_hpn t) (pa_links t) (pa_parent t)
    (pa_children t ++ l) (pa_single t) (pa_basin t) (pa_alts t) (pa_over t).
Proof.
  revert t. induction l as [|c l IH]; intros t; cbn [foldl]; [destruct t; cbn; by rewrite app_nil_r|].
  rewrite IH. cbn. by rewrite <-app_assoc.
Qed.
Lemma fold_alts l t : foldl (fun a c => add_alt c a) t l =
  PSaddle (pa_at t) (pa_edge t) (pa_edgepts t) (pa_multi t) (pa_hpn t) (pa_links t) (pa_parent t)
    (pa_children t) (pa_single t) (pa_basin t) (pa_alts t ++ l) (pa_over t).
Proof.
  revert t. induction l as [|c l IH]; intros t; cbn [foldl]; [destruct t; cbn; by rewrite app_nil_r|].
  rewrite IH. cbn. by rewrite <-app_assoc.
Qed.
Lemma relate_spec e d sc : saddle_to_dict e = Ok d -> pa_parent e.2 <> Some ""%string ->
  relate d sc = if decide (Forall (fun c => c ∈ map fst sc) (family e.2)) then Ok (change e.1 (with_family e.2) sc) else Err KeyError.
Proof.
  intros (mu & Hmu & ->)%saddle_written Hp. unfold relate. rewrite sd_id, (sd_children _ _ Hmu), (sd_parent _ _ Hmu), (sd_alts _ _ Hmu).
  cbn [rbind as_str]. rewrite refs_fold. unfold family.
  destruct (decide (Forall (fun c => c ∈ map fst sc) (pa_children e.2))) as [H1|H1].
  2: { rewrite decide_False; [done|]. by intros [? _]%Forall_app. }
  cbn [rbind]. destruct (pa_parent e.2) as [p|] eqn:Ep; cbn [fmap option_fmap option_map as_str rbind from_option].
  - rewrite decide_False by congruence. pose proof (need_ok p (change e.1 (fun a => foldl (fun a c => add_child c a) a (pa_children e.2)) sc)) as Hn.
    rewrite change_ids in Hn. destruct (decide (p ∈ map fst sc)) as [H2|H2].
    + destruct Hn as [a ->]. cbn [rbind]. rewrite refs_fold, !change_ids, !change_change.
      destruct (decide (Forall (fun c => c ∈ map fst sc) (pa_alts e.2))) as [H3|H3].
      * rewrite decide_True. 2: { apply Forall_app. split; [done|]. by constructor. }
        f_equal. apply change_ext. intros t. rewrite fold_alts, fold_children. unfold with_family. by rewrite Ep.
      * rewrite decide_False; [done|]. by intros [_ [_ ?]%Forall_cons]%Forall_app.
    + rewrite Hn, decide_False; [done|]. by intros [_ [? _]%Forall_cons]%Forall_app.
  - rewrite refs_fold, !change_ids, !change_change.
    destruct (decide (Forall (fun c => c ∈ map fst sc) (pa_alts e.2))) as [H3|H3].
    + rewrite decide_True. 2: { apply Forall_app. by split. }
      f_equal. apply change_ext. intros t. rewrite fold_alts, fold_children. unfold with_family. by rewrite Ep.
    + rewrite decide_False; [done|]. by intros [_ ?]%Forall_app.
Qed.
Lemma relate_all L vs : forall sc, Forall2 (fun e d => saddle_to_dict e = Ok d) L vs -> (forall e, e ∈ L -> pa_parent e.2 <> Some ""%string) ->
  foldM relate vs sc = if decide (Forall (fun e => Forall (fun c => c ∈ map fst sc) (family e.2)) L)
    then Ok (foldl (fun l e => change e.1 (with_family e.2) l) sc L) else Err KeyError.
Proof.
  intros sc H. revert sc. induction H as [|e d L vs He HL IH]; intros sc Hp; [by rewrite decide_True by constructor|].
  cbn [foldM foldl]. rewrite (relate_spec e d sc He) by (apply Hp; by left).
  destruct (decide (Forall (fun c => c ∈ map fst sc) (family e.2))) as [H1|H1].
  - cbn [rbind]. rewrite IH by (intros; apply Hp; by right). rewrite change_ids.
    destruct (decide (Forall (fun e0 => Forall (fun c => c ∈ map fst sc) (family e0.2)) L)) as [H2|H2].
    + by rewrite decide_True by (by constructor).
    + rewrite decide_False; [done|]. by intros [_ ?]%Forall_cons.
  - rewrite decide_False; [done|]. by intros [? _]%Forall_cons.
Qed.

(** ** The containers *)
Definition saddle_full (s : psaddle) : psaddle := with_family s (saddle_back false s).
Lemma saddles_load L d : NoDup (map fst L) -> (forall e, e ∈ L -> pa_parent e.2 <> Some ""%string) -> saddles_to_dict L = Ok d ->
  saddles_from_dict d = if forallb (fun e => readable (pa_multi e.2)) L then
    if decide (Forall (fun e => Forall (fun c => c ∈ map fst L) (family e.2)) L) then Ok (map (fun e => (e.1, saddle_full e.2)) L) else Err KeyError
    else Err TypeError.
Proof.
  intros Hd Hp. unfold saddles_to_dict. destruct (write_all saddle_to_dict L) as [vs|] eqn:Ew; [|done]. cbn [rbind]. intros <-%ok_inj.
  unfold saddles_from_dict. cbn [dget key String.eqb Ascii.eqb Bool.eqb rbind each].
  rewrite (read_written saddle_to_dict _ (fun e => readable (pa_multi e.2)) (fun e => (e.1, saddle_back false e.2)) L vs); [| |done].
  2: { intros e v (mu & Hmu & ->)%saddle_written. apply (saddle_read e mu Hmu false). }
  destruct (forallb _ L); [|done]. cbn [rbind]. apply write_all_spec in Ew. rewrite (relate_all L vs _ Ew Hp), map_map. cbn [fst].
  change (map (fun x : string * psaddle => x.1) L) with (map fst L). destruct (decide _); [|done]. f_equal.
  by rewrite (change_all with_family with_family (saddle_back false)).
Qed.
Lemma runoffs_load L d : runoffs_to_dict L = Ok d ->
  runoffs_from_dict d = if forallb (fun e => readable (pa_multi e.2)) L then Ok (map (fun e => (e.1, saddle_back true e.2)) L) else Err TypeError.
Proof.
  unfold runoffs_to_dict. destruct (write_all saddle_to_dict L) as [vs|] eqn:Ew; [|done]. cbn [rbind]. intros <-%ok_inj.
  unfold runoffs_from_dict. cbn [dget key String.eqb Ascii.eqb Bool.eqb rbind each].
  apply (read_written saddle_to_dict _ (fun e => readable (pa_multi e.2)) (fun e => (e.1, saddle_back true e.2)) L vs); [|done].
  intros e v (mu & Hmu & ->)%saddle_written. apply (saddle_read e mu Hmu true).
Qed.
Lemma summits_load L d : summits_to_dict L = Ok d ->
  summits_from_dict d = if forallb (fun e => readable (pu_multi e.2)) L then Ok (map (fun e => (e.1, summit_back e.2)) L) else Err TypeError.
Proof.
  unfold summits_to_dict. destruct (write_all summit_to_dict L) as [vs|] eqn:Ew; [|done]. cbn [rbind]. intros <-%ok_inj.
  unfold summits_from_dict. cbn [dget key String.eqb Ascii.eqb Bool.eqb rbind each].
  apply (read_written summit_to_dict _ (fun e => readable (pu_multi e.2)) (fun e => (e.1, summit_back e.2)) L vs); [|done].
  intros e v H. apply (summit_read e v H).
Qed.

(** ** Links and domains *)
Section map.
  Variable p : pmap.
  Hypothesis Hids : good_ids p.

  (** The links that an object keeps: the first of those that are equal. *)
  Definition first_links (f : plink -> string) (i : string) (P : list (string * plink)) : list (string * plink) :=
    foldl (fun acc x => if decide (f x.2 = i) then if existsb (fun b => linkers_same p x.2 b.2) acc then acc else acc ++ [x] else acc) [] P.
  Definition last_domain (i : string) (D : list pdomain) : option pdomain :=
    foldl (fun acc d => if decide (pd_summit d = i) then Some d else acc) None D.
  Definition first_domains (D : list pdomain) : list pdomain :=
    foldl (fun acc d => if existsb (domains_same p d) acc then acc else acc ++ [d]) [] D.

  Definition su_state (P : list (string * plink)) (D : list pdomain) (i : string) (u : psummit) : psummit :=
    PSummit (pu_at u) (pu_edge u) (pu_edgepts u) (opt_back (pu_multi u)) (map fst (first_links pl_summit i P)) (last_domain i D).
  Definition sa_state (P : list (string * plink)) (i : string) (t : psaddle) : psaddle :=
    PSaddle (pa_at t) (pa_edge t) (pa_edgepts t) (pa_multi t) (pa_hpn t) (map fst (first_links pl_saddle i P)) (pa_parent t)
      (pa_children t) (pa_single t) (pa_basin t) (pa_alts t) (pa_over t).
  Definition state (P : list (string * plink)) (D : list pdomain) : pmap :=
    PMap (map (fun e => (e.1, su_state P D e.1 e.2)) (pm_summits p))
      (map (fun e => (e.1, sa_state P e.1 (saddle_full e.2))) (pm_saddles p))
      (final (fun i s => sa_state P i (saddle_back true s)) (saddle_back true) (pm_runoffs p)) P (first_domains D).

  Lemma state_start : state [] [] = PMap (map (fun e => (e.1, summit_back e.2)) (pm_summits p))
    (map (fun e => (e.1, saddle_full e.2)) (pm_saddles p)) (map (fun e => (e.1, saddle_back true e.2)) (pm_runoffs p)) [] [].
  Proof. unfold state. by rewrite final_same. Qed.

  Lemma state_su_ids P D : map fst (pm_summits (state P D)) = map fst (pm_summits p).
  Proof. apply (ids_map (su_state P D)). Qed.
  Lemma state_sa_ids P D : map fst (pm_saddles (state P D) ++ pm_runoffs (state P D)) = map fst (pm_saddles p ++ pm_runoffs p).
  Proof.
    cbn [state pm_saddles pm_runoffs]. rewrite !map_app. f_equal.
    - apply (ids_map (fun i s => sa_state P i (saddle_full s))).
    - apply final_ids.
  Qed.
  Lemma state_su_at P D k : su_at (state P D) k = su_at p k.
  Proof. unfold su_at. cbn [state pm_summits]. rewrite (obj_map (su_state P D)). by destruct (obj k (pm_summits p)). Qed.
  Lemma state_sa_at P D k : sa_at (state P D) k = sa_at p k.
  Proof.
    unfold sa_at. cbn [state pm_saddles pm_runoffs]. rewrite !obj_app.
    rewrite (obj_map (fun i s => sa_state P i (saddle_full s))), final_obj.
    destruct (obj k (pm_saddles p)), (obj k (pm_runoffs p)); done.
  Qed.
  Lemma state_same P D a b : linkers_same (state P D) a b = linkers_same p a b.
  Proof. unfold linkers_same. by rewrite !state_su_at, !state_sa_at. Qed.
  Lemma state_same_domain P D a b : domains_same (state P D) a b = domains_same p a b.
  Proof.
    unfold domains_same. rewrite !state_su_at. assert (forall l : list string, omap (sa_at (state P D)) l = omap (sa_at p) l) as E; [|by rewrite !E].
    intros l. induction l as [|k l IH]; [done|].
    change (match sa_at (state P D) k with Some y => y :: omap (sa_at (state P D)) l | None => omap (sa_at (state P D)) l end =
      match sa_at p k with Some y => y :: omap (sa_at p) l | None => omap (sa_at p) l end). by rewrite state_sa_at, IH.
  Qed.

  Lemma first_links_snoc f i P x : first_links f i (P ++ [x]) =
    if decide (f x.2 = i) then if existsb (fun b => linkers_same p x.2 b.2) (first_links f i P) then first_links f i P else first_links f i P ++ [x]
    else first_links f i P.
  Proof. unfold first_links. by rewrite foldl_app. Qed.
  Lemma last_domain_snoc i D d : last_domain i (D ++ [d]) = if decide (pd_summit d = i) then Some d else last_domain i D.
  Proof. unfold last_domain. by rewrite foldl_app. Qed.
  Lemma first_domains_snoc D d : first_domains (D ++ [d]) =
    if existsb (domains_same p d) (first_domains D) then first_domains D else first_domains D ++ [d].
  Proof. unfold first_domains. by rewrite foldl_app. Qed.
  Lemma first_links_in f i P x : x ∈ first_links f i P -> x ∈ P.
  Proof.
    induction P as [|y P IH] using rev_ind; [by intros []%elem_of_nil|]. rewrite first_links_snoc, elem_of_app.
    destruct (decide _); [|auto]. destruct (existsb _ _); [auto|]. rewrite elem_of_app. intros [?|?]; auto.
  Qed.
  Lemma existsb_ext {A B} (f : A -> bool) (g : B -> bool) (h : B -> A) l : (forall b, b ∈ l -> f (h b) = g b) -> existsb f (map h l) = existsb g l.
  Proof.
    induction l as [|b l IH]; intros H; [done|]. cbn. rewrite H by (by left). f_equal. apply IH. intros c Hc. apply H. by right.
  Qed.
  Lemma among_state f i P D l : NoDup (map fst P) ->
    among (state P D) l (map fst (first_links f i P)) = existsb (fun b => linkers_same p l b.2) (first_links f i P).
  Proof.
    intros Hd. unfold among. apply existsb_ext. intros [k b] Hin. apply first_links_in in Hin. cbn [state pm_linkers fst snd].
    rewrite (proj2 (obj_in k b P Hd) Hin). apply state_same.
  Qed.

  Definition link_ok (l : plink) : Prop := pl_summit l ∈ map fst (pm_summits p) /\ pl_saddle l ∈ map fst (pm_saddles p ++ pm_runoffs p).
  Lemma linker_step newid P k l : k <> ""%string -> NoDup (map fst P) ->
    linker_from_dict newid (linker_to_dict (k, l)) (state P []) = if decide (link_ok l) then Ok (state (P ++ [(k, l)]) []) else Err KeyError.
  Proof.
    intros Hk Hd. unfold linker_from_dict.
    assert (dget (linker_to_dict (k, l)) "saddle" = Ok (VStr (pl_saddle l))) as -> by (unfold linker_to_dict; cbn [snd]; by destruct (pl_disq l)).
    assert (dget (linker_to_dict (k, l)) "summit" = Ok (VStr (pl_summit l))) as -> by (unfold linker_to_dict; cbn [snd]; by destruct (pl_disq l)).
    assert (dget (linker_to_dict (k, l)) "id" = Ok (VStr k)) as -> by done.
    assert (flag (linker_to_dict (k, l)) "disqualified" = Ok (pl_disq l)) as -> by (unfold flag, linker_to_dict; cbn [snd]; by destruct (pl_disq l)).
    cbn [rbind as_str].
    pose proof (need_ok (pl_saddle l) (pm_saddles (state P []) ++ pm_runoffs (state P []))) as Hsa.
    pose proof (need_ok (pl_summit l) (pm_summits (state P []))) as Hsu. rewrite state_sa_ids in Hsa. rewrite state_su_ids in Hsu.
    destruct (decide (pl_saddle l ∈ _)) as [H1|H1]. 2: { rewrite Hsa; cbn [rbind]; rewrite decide_False; [done|]. by intros [_ ?]. }
    destruct Hsa as [s Hs]. rewrite Hs. cbn [rbind].
    destruct (decide (pl_summit l ∈ _)) as [H2|H2]. 2: { rewrite Hsu; cbn [rbind]; rewrite decide_False; [done|]. by intros [? _]. }
    destruct Hsu as [u Hu]. rewrite Hu. cbn [rbind]. rewrite (decide_False (P := k = ""%string)) by done. rewrite decide_True by done.
    assert (pu_links u = map fst (first_links pl_summit (pl_summit l) P)) as ->.
    { unfold need in Hu. cbn [state pm_summits] in Hu. rewrite (obj_map (su_state P [])) in Hu. destruct (obj (pl_summit l) (pm_summits p)); [|done].
      by injection Hu as <-. }
    assert (pa_links s = map fst (first_links pl_saddle (pl_saddle l) P)) as ->.
    { unfold need in Hs. cbn [state pm_saddles pm_runoffs] in Hs. rewrite obj_app in Hs.
      rewrite (obj_map (fun i s => sa_state P i (saddle_full s))), final_obj in Hs.
      destruct (obj (pl_saddle l) (pm_saddles p)), (obj (pl_saddle l) (pm_runoffs p)); try done; by injection Hs as <-. }
    assert (PLink (pl_summit l) (pl_saddle l) (pl_disq l) = l) as -> by (by destruct l). rewrite !among_state by done. f_equal.
    unfold state. cbn [pm_summits pm_saddles pm_runoffs pm_linkers pm_domains]. f_equal.
    - destruct (existsb _ (first_links pl_summit _ P)) eqn:E.
      + apply map_ext. intros [i x]. cbn [fst snd]. f_equal. unfold su_state. f_equal. rewrite first_links_snoc. cbn [snd].
        destruct (decide _) as [<-|]; [by rewrite E|done].
      + apply (change_map (su_state P []) (su_state (P ++ [(k, l)]) [])); [apply Hids|]. intros i x _. unfold su_state at 3. rewrite first_links_snoc. cbn [snd].
        destruct (decide _) as [<-|]; [|done]. rewrite E, map_app. done.
    - destruct (existsb _ (first_links pl_saddle _ P)) eqn:E; cbn [orb].
      + apply map_ext. intros [i x]. cbn [fst snd]. f_equal. unfold sa_state. f_equal. rewrite first_links_snoc. cbn [snd].
        destruct (decide _) as [<-|]; [by rewrite E|done].
      + rewrite final_ids. destruct (bool_decide (pl_saddle l ∈ map fst (pm_runoffs p))) eqn:Er.
        * apply bool_decide_eq_true in Er. apply map_ext_in. intros [i x] Hin%elem_of_list_In. cbn [fst snd]. f_equal. unfold sa_state.
          f_equal. rewrite first_links_snoc. cbn [snd]. rewrite decide_False; [done|]. intros <-. apply (gi_apart p Hids (pl_saddle l)); [|done].
          apply elem_of_list_fmap. by exists (pl_saddle l, x).
        * apply (change_map (fun i s => sa_state P i (saddle_full s)) (fun i s => sa_state (P ++ [(k, l)]) i (saddle_full s))); [apply Hids|].
          intros i x _. unfold sa_state at 3. rewrite first_links_snoc. cbn [snd].
          destruct (decide _) as [<-|]; [|done]. rewrite E, map_app. done.
    - destruct (existsb _ (first_links pl_saddle _ P)) eqn:E.
      + apply final_ext. intros i x. unfold sa_state. f_equal. rewrite first_links_snoc. cbn [snd].
        destruct (decide _) as [<-|]; [by rewrite E|done].
      + apply final_change. intros i x. unfold sa_state at 3. rewrite first_links_snoc. cbn [snd].
        destruct (decide _) as [<-|]; [|done]. rewrite E, map_app. done.
  Qed.
  Lemma linker_loop newid L : forall P, ""%string ∉ map fst L -> NoDup (map fst (P ++ L)) ->
    foldM (linker_from_dict newid) (map linker_to_dict L) (state P []) = if decide (Forall (fun x => link_ok x.2) L) then Ok (state (P ++ L) []) else Err KeyError.
  Proof.
    induction L as [|[k l] L IH]; intros P Hn Hd; cbn [map foldM].
    - rewrite decide_True by constructor. by rewrite app_nil_r.
    - cbn in Hn. apply not_elem_of_cons in Hn as [Hn1 Hn2]. rewrite linker_step; [|done|]. 2: { rewrite map_app in Hd. by apply NoDup_app in Hd as [? _]. }
      destruct (decide (link_ok l)) as [Hl|Hl]; cbn [rbind].
      + replace (P ++ (k, l) :: L) with ((P ++ [(k, l)]) ++ L) in * by (by rewrite <-app_assoc). rewrite IH by done.
        destruct (decide (Forall _ L)) as [H|H]; [by rewrite decide_True by (by constructor)|]. rewrite decide_False; [done|]. by intros [_ ?]%Forall_cons.
      + rewrite decide_False; [done|]. by intros [? _]%Forall_cons.
  Qed.

  Definition domain_ok (d : pdomain) : Prop := pd_summit d ∈ map fst (pm_summits p) /\
    Forall (fun j => j ∈ map fst (pm_saddles p ++ pm_runoffs p)) (pd_saddles d).
  Lemma need_all {A} l (sc : list (string * A)) : foldM (fun k (_ : unit) => let* _ := need k sc in Ok tt) l tt =
    if decide (Forall (fun j => j ∈ map fst sc) l) then Ok tt else Err KeyError.
  Proof.
    induction l as [|k l IH]; cbn [foldM]; [by rewrite decide_True by constructor|]. pose proof (need_ok k sc) as H.
    destruct (decide (k ∈ map fst sc)) as [H1|H1].
    - destruct H as [a ->]. cbn [rbind]. rewrite IH. destruct (decide (Forall _ l)) as [H|H]; [by rewrite decide_True by (by constructor)|].
      rewrite decide_False; [done|]. by intros [_ ?]%Forall_cons.
    - rewrite H, decide_False; [done|]. by intros [? _]%Forall_cons.
  Qed.
  Lemma domain_step P D d : domain_from_dict (domain_to_dict d) (state P D) = if decide (domain_ok d) then Ok (state P (D ++ [d])) else Err KeyError.
  Proof.
    unfold domain_from_dict. assert (dget_opt (domain_to_dict d) "points" = Ok (Some (put_ptes (pd_points d)))) as -> by done.
    assert (dget (domain_to_dict d) "saddles" = Ok (ids (pd_saddles d))) as -> by done.
    assert (dget (domain_to_dict d) "summit" = Ok (VStr (pd_summit d))) as -> by done. cbn [rbind]. rewrite get_put_ptes. cbn [rbind].
    rewrite get_put_ids. cbn [rbind]. rewrite need_all, state_sa_ids. unfold domain_ok.
    destruct (decide (Forall _ (pd_saddles d))) as [H1|H1]. 2: { rewrite decide_False; [done|]. by intros [_ ?]. }
    cbn [rbind as_str]. pose proof (need_ok (pd_summit d) (pm_summits (state P D))) as Hsu. rewrite state_su_ids in Hsu.
    destruct (decide (pd_summit d ∈ _)) as [H2|H2]. 2: { rewrite Hsu; cbn [rbind]; rewrite decide_False; [done|]. by intros [? _]. }
    destruct Hsu as [u ->]. cbn [rbind]. rewrite decide_True by done. f_equal.
    assert (PDomain (pd_summit d) (pd_saddles d) (pd_points d) = d) as -> by (by destruct d).
    assert (existsb (domains_same (state P D) d) (pm_domains (state P D)) = existsb (domains_same p d) (first_domains D)) as ->.
    { change (pm_domains (state P D)) with (first_domains D). rewrite <-(map_id (first_domains D)) at 1.
      apply (existsb_ext _ (domains_same p d) (fun x => x)). intros; apply state_same_domain. }
    unfold state. cbn [pm_summits pm_saddles pm_runoffs pm_linkers pm_domains]. rewrite first_domains_snoc. f_equal.
    apply (change_map (su_state P D) (su_state P (D ++ [d]))); [apply Hids|]. intros i x _. unfold su_state at 3. rewrite last_domain_snoc. by destruct (decide _).
  Qed.
  Lemma domain_loop P L : forall D, foldM domain_from_dict (map domain_to_dict L) (state P D) =
    if decide (Forall domain_ok L) then Ok (state P (D ++ L)) else Err KeyError.
  Proof.
    induction L as [|d L IH]; intros D; cbn [map foldM].
    - rewrite decide_True by constructor. by rewrite app_nil_r.
    - rewrite domain_step. destruct (decide (domain_ok d)) as [Hl|Hl]; cbn [rbind].
      + replace (D ++ d :: L) with ((D ++ [d]) ++ L) by (by rewrite <-app_assoc). rewrite IH.
        destruct (decide (Forall _ L)) as [H|H]; [by rewrite decide_True by (by constructor)|]. rewrite decide_False; [done|]. by intros [_ ?]%Forall_cons.
      + rewrite decide_False; [done|]. by intros [? _]%Forall_cons.
  Qed.
End map.

(** ** The whole map *)
Lemma summit_writes e : (exists v, summit_to_dict e = Ok v) <-> has_perimeter (pu_multi e.2).
Proof.
  rewrite <-put_multi_ok. unfold summit_to_dict. destruct (put_multi (pu_multi e.2)) as [mu|]; cbn [rbind].
  - split; intros _; by eexists.
  - split; intros [? [=]].
Qed.
Lemma saddle_writes e : (exists v, saddle_to_dict e = Ok v) <-> has_perimeter (pa_multi e.2).
Proof.
  rewrite <-put_multi_ok. split.
  - intros (v & (mu & H & _)%saddle_written). by exists mu.
  - intros [mu H]. eexists. apply saddle_written. by exists mu.
Qed.
Lemma save_ok md5 p : (exists d, map_to_dict md5 p = Ok d) <-> can_save p.
Proof.
  assert (can_save p <-> (exists vs, write_all summit_to_dict (pm_summits p) = Ok vs) /\
    (exists vs, write_all saddle_to_dict (pm_saddles p) = Ok vs) /\ (exists vs, write_all saddle_to_dict (pm_runoffs p) = Ok vs)) as H.
  { rewrite !write_all_ok. unfold can_save. split.
    - intros [H1 H2]. split; [|split].
      + intros [i u] Hin. apply summit_writes. by apply (H1 i).
      + intros [i u] Hin. apply saddle_writes. apply (H2 i), elem_of_app. by left.
      + intros [i u] Hin. apply saddle_writes. apply (H2 i), elem_of_app. by right.
    - intros (H1 & H2 & H3). split.
      + intros i u Hin. by apply (summit_writes (i, u)), H1.
      + intros i u [Hin|Hin]%elem_of_app; [by apply (saddle_writes (i, u)), H2|by apply (saddle_writes (i, u)), H3]. }
  rewrite H. clear H. unfold map_to_dict, summits_to_dict, saddles_to_dict, runoffs_to_dict.
  destruct (write_all summit_to_dict (pm_summits p)) as [v1|]; cbn [rbind]; [|split; [intros [? [=]]|intros [[? [=]] _]]].
  destruct (write_all saddle_to_dict (pm_saddles p)) as [v2|]; cbn [rbind]; [|split; [intros [? [=]]|intros (_ & [? [=]] & _)]].
  destruct (write_all saddle_to_dict (pm_runoffs p)) as [v3|]; cbn [rbind]; [|split; [intros [? [=]]|intros (_ & _ & [? [=]])]].
  split; [intros _; split; [|split]; by eexists|]. intros _. by eexists.
Qed.
Lemma readable_all {A} (f : A -> option multi) (l : list (string * A)) : (forall i a, (i, a) ∈ l -> has_perimeter (f a)) ->
  (forallb (fun e => readable (f e.2)) l = true <-> forall i a, (i, a) ∈ l -> has_edge_list (f a)).
Proof.
  intros H. rewrite forallb_forall. split.
  - intros H1 i a Hin. apply readable_spec; [by apply (H i)|]. apply (H1 (i, a)). by apply elem_of_list_In.
  - intros H1 [i a] Hin%elem_of_list_In. apply readable_spec; [by apply (H i)|]. by apply (H1 i).
Qed.
Lemma family_in s j : j ∈ family s <-> j ∈ pa_children s \/ pa_parent s = Some j \/ j ∈ pa_alts s.
Proof.
  unfold family. rewrite !elem_of_app. destruct (pa_parent s) as [q|]; cbn [from_option].
  - rewrite elem_of_list_singleton. split; (intros [?|[?|?]]; [by left| |by right; right]); right; left; congruence.
  - rewrite elem_of_nil. naive_solver.
Qed.

Section load.
  Variables (p : pmap) (md5 newid : string) (d : val).
  Hypothesis Hids : good_ids p.
  Hypothesis Hd : map_to_dict md5 p = Ok d.
  Let result := state p (pm_linkers p) (pm_domains p).

  Lemma load_eq : map_from_dict newid md5 d =
    if forallb (fun e => readable (pa_multi e.2)) (pm_saddles p) then
      if decide (Forall (fun e => Forall (fun c => c ∈ map fst (pm_saddles p)) (family e.2)) (pm_saddles p)) then
        if forallb (fun e => readable (pu_multi e.2)) (pm_summits p) && forallb (fun e => readable (pa_multi e.2)) (pm_runoffs p) then
          if decide (Forall (fun x => link_ok p x.2) (pm_linkers p)) then
            if decide (Forall (domain_ok p) (pm_domains p)) then Ok result else Err KeyError
          else Err KeyError
        else Err TypeError
      else Err KeyError
    else Err TypeError.
  Proof using Hids Hd.
    revert Hd. unfold map_to_dict. destruct (summits_to_dict (pm_summits p)) as [v1|] eqn:E1; [|done]. cbn [rbind].
    destruct (saddles_to_dict (pm_saddles p)) as [v2|] eqn:E2; [|done]. cbn [rbind].
    destruct (runoffs_to_dict (pm_runoffs p)) as [v3|] eqn:E3; [|done]. cbn [rbind]. intros <-%ok_inj.
    unfold map_from_dict. cbn [dget key String.eqb Ascii.eqb Bool.eqb rbind as_str]. rewrite decide_False by congruence.
    rewrite (saddles_load (pm_saddles p)); [|apply Hids| |done].
    2: { intros [i s] Hin. cbn. by apply (gi_parent_names _ Hids i). }
    destruct (forallb _ (pm_saddles p)); [|done]. destruct (decide (Forall _ (pm_saddles p))); [|done]. cbn [rbind].
    rewrite (summits_load (pm_summits p)) by done. destruct (forallb _ (pm_summits p)); [|done]. cbn [rbind andb].
    rewrite (runoffs_load (pm_runoffs p)) by done. destruct (forallb _ (pm_runoffs p)); [|done]. cbn [rbind].
    rewrite <-(state_start p). rewrite (linker_loop p Hids newid (pm_linkers p) []); [|apply Hids|apply Hids].
    destruct (decide (Forall _ (pm_linkers p))); [|done]. cbn [rbind]. rewrite (domain_loop p Hids _ _ []). done.
  Qed.
  Lemma saved : can_save p.
  Proof using Hd. apply (save_ok md5). by exists d. Qed.
  Lemma load_iff p' : map_from_dict newid md5 d = Ok p' <-> closed p /\ can_read p /\ p' = result.
  Proof using Hids Hd.
    destruct saved as [S1 S2].
    assert (forallb (fun e => readable (pa_multi e.2)) (pm_saddles p) = true <-> forall i s, (i, s) ∈ pm_saddles p -> has_edge_list (pa_multi s)) as R1.
    { apply (readable_all pa_multi). intros i s Hin. apply (S2 i), elem_of_app. by left. }
    assert (forallb (fun e => readable (pa_multi e.2)) (pm_runoffs p) = true <-> forall i s, (i, s) ∈ pm_runoffs p -> has_edge_list (pa_multi s)) as R2.
    { apply (readable_all pa_multi). intros i s Hin. apply (S2 i), elem_of_app. by right. }
    assert (forallb (fun e => readable (pu_multi e.2)) (pm_summits p) = true <-> forall i s, (i, s) ∈ pm_summits p -> has_edge_list (pu_multi s)) as R3.
    { apply (readable_all pu_multi). intros i s Hin. by apply (S1 i). }
    rewrite load_eq. split.
    - destruct (forallb _ (pm_saddles p)); [|done]. destruct (decide (Forall _ (pm_saddles p))) as [H1|]; [|done].
      destruct (forallb _ (pm_summits p)); [|done]. destruct (forallb _ (pm_runoffs p)); [|done]. cbn [andb].
      destruct (decide (Forall _ (pm_linkers p))) as [H2|]; [|done]. destruct (decide (Forall _ (pm_domains p))) as [H3|]; [|done].
      intros <-%ok_inj. pose proof (proj1 (Forall_forall _ _) H1) as F1. pose proof (proj1 (Forall_forall _ _) H2) as F2.
      pose proof (proj1 (Forall_forall _ _) H3) as F3. cbn beta in *. split; [|split; [|done]].
      + split.
        * intros i s Hin j Hj. specialize (F1 _ Hin). rewrite Forall_forall in F1. apply F1. by apply family_in.
        * intros k l Hin. apply (F2 _ Hin).
        * intros e Hin. destruct (F3 _ Hin) as [H4 H5]. rewrite Forall_forall in H5. by split.
      + split; [by apply R3|]. intros i s [Hin|Hin]%elem_of_app; [by eapply R1|by eapply R2].
    - intros (Hc & [C1 C2] & ->).
      rewrite (proj2 R1), (proj2 R2), (proj2 R3); [|done|intros i s Hin; apply (C2 i), elem_of_app; by right|intros i s Hin; apply (C2 i), elem_of_app; by left].
      cbn [andb]. rewrite !decide_True; [done| | |].
      + apply Forall_forall. intros e Hin. split; [by apply (cl_domains p Hc)|]. apply Forall_forall. by apply (cl_domains p Hc).
      + apply Forall_forall. intros [k l] Hin. by apply (cl_links p Hc k).
      + apply Forall_forall. intros [i s] Hin. apply Forall_forall. intros j Hj%family_in. by apply (cl_family p Hc i s).
  Qed.
End load.

(** ** Equal objects *)
Lemma spot_eq_same a b : spot_eq a b = true <-> same_spot a b.
Proof.
  assert (forall q r, eq_key q = eq_key r <-> same_number q r) as H.
  { intros q r. unfold eq_key, same_number. destruct (Qeq_bool q 0) eqn:E1, (Qeq_bool r 0) eqn:E2;
      rewrite <-?not_true_iff_false, ?Qeq_bool_iff in *.
    - split; [by left|done].
    - split; [done|]. by intros [[_ ?]|(? & _)].
    - split; [done|]. by intros [[? _]|(_ & ? & _)].
    - split; [intros [= E]; by right|]. intros [[? _]|(_ & _ & ->)]; done. }
  unfold spot_eq, same_spot. rewrite !andb_true_iff, !bool_decide_eq_true, !H, Z.eqb_eq. tauto.
Qed.
Section same.
  Variable p : pmap.
  Hypothesis Hids : good_ids p.
  Lemma su_at_spec i a : su_at p i = Some a <-> summit_at p i a.
  Proof using Hids.
    unfold su_at, summit_at. rewrite fmap_Some. split.
    - intros (u & H & ->). exists u. split; [|done]. apply obj_in; [apply Hids|done].
    - intros (u & H & <-). exists u. split; [|done]. apply obj_in; [apply Hids|done].
  Qed.
  Lemma saddle_ids i b c : (i, b) ∈ pm_saddles p ++ pm_runoffs p -> (i, c) ∈ pm_saddles p ++ pm_runoffs p -> pa_at b = pa_at c.
  Proof using Hids.
    assert (forall x (l : list (string * psaddle)), (i, x) ∈ l -> i ∈ map fst l) as Hf.
    { intros x l H. apply elem_of_list_fmap. by exists (i, x). }
    intros [Hb|Hb]%elem_of_app [Hc|Hc]%elem_of_app.
    - f_equal. by apply (nodup_same i b c (pm_saddles p)); [apply Hids|..].
    - destruct (gi_apart p Hids i); eauto.
    - destruct (gi_apart p Hids i); eauto.
    - by apply (gi_runoffs p Hids i).
  Qed.
  Lemma sa_at_spec i a : sa_at p i = Some a <-> saddle_at p i a.
  Proof using Hids.
    unfold sa_at, saddle_at. rewrite fmap_Some. split.
    - intros (u & H & ->). exists u. split; [|done]. by apply obj_some.
    - intros (u & H & <-). destruct (obj i (pm_saddles p ++ pm_runoffs p)) as [t|] eqn:E.
      + exists t. split; [done|]. apply obj_some in E. by apply (saddle_ids i).
      + apply obj_none in E. destruct E. apply elem_of_list_fmap. by exists (i, u).
  Qed.
  Lemma spots_same_spec a b : spots_same a b = true <-> exists x y, a = Some x /\ b = Some y /\ same_spot x y.
  Proof.
    destruct a as [x|], b as [y|]; cbn; [rewrite spot_eq_same; naive_solver|naive_solver..].
  Qed.
  Lemma linkers_same_twin k l : linkers_same p k l = true <-> twin p k l.
  Proof using Hids.
    unfold linkers_same, twin. rewrite andb_true_iff, !spots_same_spec. setoid_rewrite su_at_spec. setoid_rewrite sa_at_spec. done.
  Qed.
  Lemma spots_levels l k : sorted_same spot_lt spot_eq l k = true <-> level_by_level (fun a => inject_Z (sp_ele a)) same_spot l k.
  Proof.
    rewrite (sorted_same_levels (fun a : spot => inject_Z (sp_ele a))), levels_picks.
    - split; intros H e; (eapply Forall2_impl; [apply H|]); intros x y; apply spot_eq_same.
    - intros a b. unfold spot_lt. rewrite Z.ltb_lt, <-Zlt_Qlt. done.
    - intros a b E. apply spot_eq_same in E as (_ & _ & ->). reflexivity.
  Qed.
  Lemma sa_omap l : Forall (fun j => j ∈ map fst (pm_saddles p ++ pm_runoffs p)) l ->
    forall k, Forall2 (saddle_at p) l k <-> k = omap (sa_at p) l.
  Proof using Hids.
    induction l as [|i l IH]; intros H k.
    - split; [by inversion 1|]. intros ->. constructor.
    - apply Forall_cons in H as [H1 H2]. specialize (IH H2). destruct (sa_at p i) as [a|] eqn:E.
      + assert (omap (sa_at p) (i :: l) = a :: omap (sa_at p) l) as ->.
        { change (match sa_at p i with Some y => y :: omap (sa_at p) l | None => omap (sa_at p) l end = a :: omap (sa_at p) l). by rewrite E. }
        split.
        * inversion 1 as [|? b ? k' Hb Hk]; subst. apply sa_at_spec in Hb. apply IH in Hk. congruence.
        * intros ->. constructor; [by apply sa_at_spec|by apply IH].
      + exfalso. unfold sa_at in E. apply fmap_None, obj_none in E. done.
  Qed.
  Lemma domains_same_twin a b : domain_ok p a -> domain_ok p b -> (domains_same p a b = true <-> domain_twin p a b).
  Proof using Hids.
    intros [A1 A2] [B1 B2]. unfold domains_same, domain_twin.
    assert (level_by_level (fun a => inject_Z (sp_ele a)) same_spot (omap (sa_at p) (pd_saddles a)) (omap (sa_at p) (pd_saddles b)) <->
      exists l k, Forall2 (saddle_at p) (pd_saddles a) l /\ Forall2 (saddle_at p) (pd_saddles b) k /\
        level_by_level (fun a => inject_Z (sp_ele a)) same_spot l k) as Hl.
    { split.
      - intros H. do 2 eexists. split; [by apply sa_omap|]. split; [by apply sa_omap|done].
      - intros (l & k & Hl & Hk & H). apply sa_omap in Hl as ->; [|done]. apply sa_omap in Hk as ->; [|done]. done. }
    rewrite <-Hl, <-spots_levels. pose proof (perimeter_eq_perm (pd_points a) (pd_points b)) as Hp. unfold perimeter_eq in Hp. rewrite <-Hp.
    destruct (su_at p (pd_summit a)) as [x|] eqn:Ea.
    2: { unfold su_at in Ea. apply fmap_None, obj_none in Ea. done. }
    destruct (su_at p (pd_summit b)) as [y|] eqn:Eb.
    2: { unfold su_at in Eb. apply fmap_None, obj_none in Eb. done. }
    rewrite !andb_true_iff, bool_decide_eq_true, spot_eq_same. setoid_rewrite <-su_at_spec. rewrite Ea, Eb.
    assert (same_spot x y -> spot_key x = spot_key y) as Hk.
    { intros (H1 & H2 & H3). unfold spot_key. f_equal; [|done]. clear -H1 H2.
      assert (forall q r, same_number q r -> round6 q = round6 r) as H; [|by rewrite (H _ _ H1), (H _ _ H2)].
      intros q r [[E1 E2]|(_ & _ & E)]; [|done]. apply round6_proper. by rewrite E1, E2. }
    split.
    - intros (((H1 & H2) & H3) & H4). split; [by exists x, y|done].
    - intros ((x' & y' & E1 & E2 & H2) & H3 & H4). injection E1 as <-. injection E2 as <-. auto.
  Qed.
End same.

(** ** The reloaded map *)
Section reloaded.
  Variable p : pmap.
  Hypothesis Hids : good_ids p.
  Lemma first_links_firsts f i P : firsts (fun a b : string * plink => twin p a.2 b.2) (filter (fun k => f k.2 = i) P) (first_links p f i P).
  Proof using Hids.
    induction P as [|x P IH] using rev_ind; [constructor|]. rewrite filter_app, first_links_snoc, filter_cons, filter_nil.
    destruct (decide (f x.2 = i)) as [E|E]; [|by rewrite app_nil_r].
    destruct (existsb _ _) eqn:Ex.
    - apply existsb_exists in Ex as (b & Hb%elem_of_list_In & Hs). apply (firsts_drop _ _ _ x b); [done|done|]. by apply linkers_same_twin.
    - apply firsts_keep; [done|]. intros b Hb Ht. apply (linkers_same_twin p Hids) in Ht.
      assert (existsb (fun b => linkers_same p x.2 b.2) (first_links p f i P) = true) as E'; [|congruence].
      apply existsb_exists. exists b. split; [by apply elem_of_list_In|done].
  Qed.
  Lemma first_domains_firsts D : Forall (domain_ok p) D -> firsts (domain_twin p) D (first_domains p D) /\ Forall (domain_ok p) (first_domains p D).
  Proof using Hids.
    induction D as [|x D IH] using rev_ind; [intros _; split; constructor|]. intros [H1 H2]%Forall_app. apply Forall_cons in H2 as [H2 _].
    destruct (IH H1) as [I1 I2]. rewrite first_domains_snoc. destruct (existsb _ _) eqn:Ex.
    - split; [|done]. apply existsb_exists in Ex as (b & Hb%elem_of_list_In & Hs). apply (firsts_drop _ _ _ x b); [done|done|].
      apply domains_same_twin; [done|done| |done]. rewrite Forall_forall in I2. by apply I2.
    - split; [|apply Forall_app; split; [done|by constructor]]. apply firsts_keep; [done|]. intros b Hb Ht.
      apply domains_same_twin in Ht; [|done|done|rewrite Forall_forall in I2; by apply I2].
      assert (existsb (domains_same p x) (first_domains p D) = true) as E'; [|congruence].
      apply existsb_exists. exists b. split; [by apply elem_of_list_In|done].
  Qed.
  Lemma last_domain_spec i D : match last_domain i D with
      | None => forall d, d ∈ D -> pd_summit d <> i
      | Some d => exists l1 l2, D = l1 ++ d :: l2 /\ pd_summit d = i /\ forall d', d' ∈ l2 -> pd_summit d' <> i
      end.
  Proof.
    induction D as [|x D IH] using rev_ind; [intros d []%elem_of_nil|]. rewrite last_domain_snoc. destruct (decide (pd_summit x = i)) as [E|E].
    - exists D, []. split; [done|]. split; [done|]. intros d []%elem_of_nil.
    - destruct (last_domain i D) as [d|].
      + destruct IH as (l1 & l2 & -> & Hd & Hl). exists l1, (l2 ++ [x]). split; [by rewrite <-app_assoc|]. split; [done|].
        intros d' [?| ->%elem_of_list_singleton]%elem_of_app; [by apply Hl|done].
      + intros d [?| ->%elem_of_list_singleton]%elem_of_app; [by apply IH|done].
  Qed.
  Lemma kept_map {A B} (f : string -> A -> B) (R : string * A -> string * B -> Prop) (l : list (string * A)) :
    (forall i a, (i, a) ∈ l -> R (i, a) (i, f i a)) -> Forall2 R l (map (fun e => (e.1, f e.1 e.2)) l).
  Proof.
    induction l as [|[i a] l IH]; intros H; constructor; [apply H; by left|]. apply IH. intros j b Hb. apply H. by right.
  Qed.
  Lemma kept_final {A B} (f : string -> A -> B) g (R : string * A -> string * B -> Prop) (l : list (string * A)) :
    (forall i a b, (i, a) ∈ l -> b = f i a \/ b = g a -> R (i, a) (i, b)) -> Forall2 R l (final f g l).
  Proof.
    induction l as [|[i a] l IH]; intros H; constructor.
    - apply H; [by left|]. destruct (decide _); auto.
    - apply IH. intros j b c Hb. apply H. by right.
  Qed.
  Lemma state_reloaded : can_save p -> closed p -> reloaded p (state p (pm_linkers p) (pm_domains p)).
  Proof using Hids.
    intros [S1 S2] Hc. split.
    - apply (kept_map (su_state p (pm_linkers p) (pm_domains p))). intros i u Hin. cbn [fst snd su_state pu_at pu_edge pu_edgepts pu_multi pu_links pu_domain].
      split; [done|]. split; [split; [done|]; split; [done|]; split; [done|]; by apply opt_back_kept, (S1 i)|]. split; [|apply last_domain_spec].
      exists (first_links p pl_summit i (pm_linkers p)). split; [apply first_links_firsts|done].
    - apply (kept_map (fun i s => sa_state p (pm_linkers p) i (saddle_full s))). intros i s Hin.
      assert (has_perimeter (pa_multi s)) as Hs by (apply (S2 i), elem_of_app; by left). cbn.
      split; [done|]. split; [repeat split; try done; by apply opt_back_kept|]. split.
      + exists (first_links p pl_saddle i (pm_linkers p)). split; [apply first_links_firsts|done].
      + split; [by destruct (pa_parent s)|done].
    - apply kept_final. intros i s t Hin Ht.
      assert (has_perimeter (pa_multi s)) as Hs by (apply (S2 i), elem_of_app; by right).
      split; [done|]. destruct Ht as [->| ->]; cbn; (split; [repeat split; try done; by apply opt_back_kept|done]).
    - cbn [pm_runoffs state]. intros l1 e l2 E. revert l1 e l2 E. clear S2. induction (pm_runoffs p) as [|[i s] l IH]; [by intros [|]|].
      intros [|e1 l1] e l2; cbn [final app].
      + intros [= <- <-]. unfold runoff_links. cbn [fst snd]. rewrite final_ids. destruct (decide _); [done|].
        exists (first_links p pl_saddle i (pm_linkers p)). split; [apply first_links_firsts|done].
      + intros [= _ E]. by eapply IH.
    - done.
    - apply first_domains_firsts. apply Forall_forall. intros e Hin. split; [by apply (cl_domains p Hc)|].
      apply Forall_forall. by apply (cl_domains p Hc).
  Qed.
End reloaded.
Lemma firsts_all {A} (like : A -> A -> Prop) l l' : firsts like l l' ->
  (forall l1 a l2 b l3, l = l1 ++ a :: l2 ++ b :: l3 -> ~ like b a) -> l' = l.
Proof.
  induction 1 as [|l l' a Hf IH Hn|l l' a b Hf IH Hb Hab]; intros H; [done| |].
  - f_equal. apply IH. intros l1 x l2 y l3 ->. apply (H l1 x l2 y (l3 ++ [a])). by rewrite <-!app_assoc, !app_comm_cons, <-app_assoc.
  - rewrite IH in Hb.
    + apply elem_of_list_split in Hb as (l1 & l2 & ->). exfalso. apply (H l1 b l2 a []); [by rewrite <-app_assoc|done].
    + intros l1 x l2 y l3 ->. apply (H l1 x l2 y (l3 ++ [a])). by rewrite <-!app_assoc, !app_comm_cons, <-app_assoc.
Qed.
Lemma filter_order {A} (P : A -> Prop) `{!forall x, Decision (P x)} l l1 a l2 b l3 : filter P l = l1 ++ a :: l2 ++ b :: l3 ->
  exists m1 m2 m3, l = m1 ++ a :: m2 ++ b :: m3.
Proof.
  assert (forall l r x s, filter P l = r ++ x :: s -> exists m n, l = m ++ x :: n /\ filter P n = s) as Hsp.
  { clear. induction l as [|y l IH]; intros r x s; [by destruct r|]. rewrite filter_cons. destruct (decide (P y)) as [Hy|Hy].
    - destruct r as [|z r]; cbn; intros [= -> E]; [by exists [], l|]. destruct (IH _ _ _ E) as (m & n & -> & Hn). by exists (z :: m), n.
    - intros E. destruct (IH _ _ _ E) as (m & n & -> & Hn). by exists (y :: m), n. }
  intros E. apply Hsp in E as (m1 & n & -> & E). apply Hsp in E as (m2 & m3 & -> & E). by exists m1, m2, m3.
Qed.
Lemma links_kept p p' : (forall l1 k l2 k' l3, pm_linkers p = l1 ++ k :: l2 ++ k' :: l3 -> ~ twin p k'.2 k.2) -> reloaded p p' ->
  Forall2 (fun e e' => e'.1 = e.1 /\ pu_links e'.2 = map fst (at_end pl_summit p e.1)) (pm_summits p) (pm_summits p') /\
  Forall2 (fun e e' => e'.1 = e.1 /\ pa_links e'.2 = map fst (at_end pl_saddle p e.1)) (pm_saddles p) (pm_saddles p') /\
  forall l1 e l2, pm_runoffs p' = l1 ++ e :: l2 ->
    pa_links e.2 = if decide (e.1 ∈ map fst l2) then [] else map fst (at_end pl_saddle p e.1).
Proof.
  intros Hn. assert (forall f i l, firsts (fun a b => twin p a.2 b.2) (at_end f p i) l -> l = at_end f p i) as H.
  { intros f i l Hf. apply (firsts_all _ _ _ Hf). intros l1 a l2 b l3 E. apply filter_order in E as (m1 & m2 & m3 & E). by apply (Hn m1 a m2 b m3). }
  intros [H1 H2 _ H3 _ _]. split; [|split].
  1,2: (eapply Forall2_impl; [eassumption|]); cbn beta; intros e e' (E & _ & (l & Hl & El) & _); split; try done; by rewrite <-(H _ _ _ Hl).
  intros l1 e l2 E. specialize (H3 l1 e l2 E). unfold runoff_links in H3. destruct (decide _); [done|].
  destruct H3 as (l & Hl & El). by rewrite <-(H _ _ _ Hl).
Qed.
Lemma load_guard newid md5 md5' p d : good_ids p -> map_to_dict md5 p = Ok d -> map_from_dict newid md5' d = Err OtherError <-> md5' <> md5.
Proof.
  intros Hi Hd. destruct (decide (md5' = md5)) as [->|Hne].
  - rewrite (load_eq p md5 newid d Hi Hd). split; [|done]. repeat (case_match; try done).
  - split; [done|]. intros _. revert Hd. unfold map_to_dict. destruct (summits_to_dict _); [|done]. destruct (saddles_to_dict _); [|done].
    destruct (runoffs_to_dict _); [|done]. cbn [rbind]. intros <-%ok_inj. unfold map_from_dict. cbn [dget key String.eqb Ascii.eqb Bool.eqb rbind as_str].
    rewrite decide_True by congruence. done.
Qed.
Lemma app_str_inj (a b c d : string) : String.length a = String.length b -> (a ++ c = b ++ d)%string -> a = b /\ c = d.
Proof.
  revert b. induction a as [|x a IH]; intros [|y b] Hl E; try done. cbn in Hl, E. injection E as -> E. injection Hl as Hl.
  destruct (IH b Hl E) as [-> ->]. done.
Qed.
Lemma md5_parts h h' seed seed' file file' printed printed' : String.length file = String.length file' ->
  md5_of h seed file printed = md5_of h' seed' file' printed' <-> file = file' /\ h seed printed = h' seed' printed'.
Proof.
  intros Hl. unfold md5_of. split.
  - intros E. apply app_str_inj in E as [-> E]; [|done]. split; [done|]. by apply (inj pretty).
  - intros [-> ->]. done.
Qed.
Lemma md5_same_file h seed seed' file printed : md5_of h seed file printed = md5_of h seed' file printed <-> h seed printed = h seed' printed.
Proof. rewrite md5_parts by done. tauto. Qed.
Lemma multi_trip u :
  (mu_per u = None -> multi_to_dict u = Err AttributeError) /\
  (forall b, mu_per u = Some b -> exists d, multi_to_dict u = Ok d /\
    (b_edgepts b = None -> multi_from_dict d = Err TypeError) /\
    (b_edgepts b <> None -> exists b', kept_bounds b b' /\
       multi_from_dict d = Ok (Multi (map (fun q => (q.1, None)) (mu_points u)) (mu_ele u) (Some b')))).
Proof.
  split; [intros E; unfold multi_to_dict; by rewrite E|]. intros b Eb.
  destruct (multi_to_dict u) as [d|] eqn:Ed; [|unfold multi_to_dict in Ed; by rewrite Eb in Ed].
  exists d. split; [done|]. rewrite (multi_back_read u d Ed), Eb. split; intros H.
  - by rewrite H.
  - destruct (b_edgepts b); [|done]. exists (per_back b). split; [apply per_back_kept|]. unfold multi_back. by rewrite Eb.
Qed.
