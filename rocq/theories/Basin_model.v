(** Model of basin saddle detection:
    /repo/pyprom/lib/logic/basin_saddle_finder.py. *)
From Verif Require Export Graph_model.
Local Open Scope Z_scope.

(** A node of the graph: a saddle or a summit, by number. *)
Notation node := (nat + nat)%type.
Notation Sad := (@inl nat nat).
Notation Sum := (@inr nat nat).

Definition node_feat (w : world) (n : node) : option feature :=
  match n with
  | inl i => sa_feat <$> w_saddles w !! i
  | inr a => su_feat <$> w_summits w !! a
  end.
(** [elevation]; every node of the graph is an existing object, the default is
    not used. *)
Definition node_ele (w : world) (n : node) : Z := from_option ft_ele 0 (node_feat w n).
(** [z.disqualified or z.edgeEffect] (lines 72, 81, 86).  [Summit.disqualified]
    is always False (summit.py:77; nothing assigns it). *)
Definition dead (w : world) (n : node) : bool :=
  match n with
  | inl i => match w_saddles w !! i with Some s => disqualified s || ft_edge (sa_feat s) | None => true end
  | inr a => match w_summits w !! a with Some s => ft_edge (su_feat s) | None => true end
  end.
(** saddle.py:134-140 and summit.py:93-99 *)
Definition feature_neighbors (w : world) (n : node) : list node :=
  match n with
  | inl i => match w_saddles w !! i with
             | Some s => omap (fun k => (fun l => Sum (ln_summit l)) <$> w_links w !! k) (sa_links s)
             | None => [] end
  | inr a => match w_summits w !! a with
             | Some s => omap (fun k => (fun l => Sad (ln_saddle l)) <$> w_links w !! k) (su_links s)
             | None => [] end
  end.

(** [sorted(..., key=elevation)], lines 53-55: a stable sort, lowest first, of a
    dict without repetitions. *)
Fixpoint ins_ele (w : world) (i : nat) (l : list nat) : list nat :=
  match l with
  | [] => [i]
  | j :: l' => if node_ele w (Sad i) <=? node_ele w (Sad j) then i :: l else j :: ins_ele w i l'
  end.
Definition sort_ele (w : world) (l : list nat) : list nat := foldr (ins_ele w) [] l.
(** [{saddle.id: saddle for saddle in self.saddles}]: each saddle once, at the
    place of its first occurrence. *)
Fixpoint dict_keys (seen l : list nat) : list nat :=
  match l with
  | [] => []
  | i :: l => if decide (i ∈ seen) then dict_keys seen l else i :: dict_keys (i :: seen) l
  end.

Section basin.
  Variable m : datamap.

  (** [nbr == z], spot_elevation.py:147-166, for any two features. *)
  Definition node_same (w : world) (n n' : node) : bool :=
    match node_feat w n, node_feat w n' with
    | Some f, Some f' => spot_eq (ft_spot m f) (ft_spot m f')
    | _, _ => false
    end.

  (** The distinct summits of a list: [set(...)] compares by hash and [==], which
      agree. *)
  Fixpoint unique_summits (w : world) (l : list nat) : list nat :=
    match l with
    | [] => []
    | a :: l => a :: filter (fun b => summit_same m w a b = false) (unique_summits w l)
    end.
  (** lines 158-176 [_disqualify_single_source_saddles] *)
  Definition linked_summits (w : world) (s : saddle) : list nat :=
    omap (fun k => ln_summit <$> w_links w !! k) (sa_links s).
  Definition single_source (w : world) (i : nat) : world :=
    match w_saddles w !! i with
    | Some s => if (length (unique_summits w (linked_summits w s)) <=? 1)%nat
                then disqualify_self_and_linkers false true i w else w
    | None => w
    end.
  (** lines 57-60 *)
  Definition stub_phase (w : world) (features : list nat) : world :=
    foldl (fun w i =>
      match w_saddles w !! i with
      | Some s => if disqualified s then w else single_source w i
      | None => w
      end) w features.

  (** lines 137-156 [find_lowest_cycle_members] *)
  Definition find_lowest (w : world) (cycle : list node) : list node :=
    foldl (fun lowest n =>
      match lowest with
      | [] => lowest
      | h :: _ =>
          if (node_ele w n =? node_ele w h) && negb (bool_decide (n = h)) then lowest ++ [n]
          else if node_ele w n <? node_ele w h then [n]
          else lowest
      end) (take 1 cycle) cycle.

  (** [lowest.copy()] and [.remove(saddle)], line 134-135. *)
  Fixpoint remove_first (w : world) (i : nat) (l : list nat) : list nat :=
    match l with
    | [] => []
    | j :: l => if saddle_same m w j i then l else j :: remove_first w i l
    end.
  Definition as_saddle (n : node) : option nat := match n with inl i => Some i | inr _ => None end.

  (** lines 122-135 [_disqualify_and_label].  A Summit has neither
      [disqualify_self_and_linkers] nor a slot for the alternatives. *)
  Definition disqualify_and_label (w : world) (lowest : list node) : res world :=
    match lowest with
    | [] => Err IndexError
    | h :: _ =>
        match mapM as_saddle lowest with
        | None => Err AttributeError
        | Some ids =>
            match ids with
            | [] => Err IndexError
            | i :: _ =>
                let w := disqualify_self_and_linkers true false i w in
                if (1 <? length ids)%nat
                then Ok (foldl (fun w j => upd_saddle j (set_alts (remove_first w j ids)) w) w ids)
                else Ok w
            end
        end
    end.

  (** The state of one search, lines 75-111.  [bs_feats] is [features], latest
      entry first; [bs_look] is [lookback]; [bs_expl] is [exploredNbrs]; [bs_cyc]
      are the keys of [cycleMembers]. *)
  Record bstate := BState {
    bs_world : world;
    bs_feats : list nat;
    bs_stack : list node;
    bs_look : gmap node node;
    bs_expl : gmap node (list node);
    bs_cyc : list node }.

  (** [features.pop(n.id, None)] *)
  Definition pop_feat (n : node) (l : list nat) : list nat :=
    match n with inl i => filter (fun j => j <> i) l | inr _ => l end.

  (** lines 99-106: the nodes appended by the loop, and the final [p]. *)
  Fixpoint chain_up (fuel : nat) (root : node) (look : gmap node node) (pn : list node) (p : node) :
      res (list node * node) :=
    match fuel with
    | O => Err OutOfFuel
    | S fuel =>
        if decide (p ∈ pn) then Ok ([], p)
        else match look !! p with
             | None => Err KeyError
             | Some p' =>
                 if decide (p' = root) then Ok ([p], p')
                 else let* r := chain_up fuel root look pn p' in Ok (p :: r.1, r.2)
             end
    end.

  (** lines 85-111: one neighbor [nbr] of [z]. *)
  Definition visit (root z nbr : node) (st : bstate) : res bstate :=
    let w := bs_world st in
    if dead w nbr then
      Ok (BState w (pop_feat nbr (bs_feats st)) (bs_stack st) (bs_look st) (bs_expl st) (bs_cyc st))
    else match bs_expl st !! nbr with
    | None =>
        Ok (BState w (bs_feats st) (nbr :: bs_stack st) (<[nbr := z]> (bs_look st))
              (<[nbr := [z]]> (bs_expl st)) (bs_cyc st))
    | Some pn =>
        if node_same w nbr z then Ok st
        else if decide (nbr ∈ default [] (bs_expl st !! z)) then Ok st
        else match bs_look st !! z with
        | None => Err KeyError
        | Some p =>
            let* r := chain_up (S (size (bs_look st))) root (bs_look st) pn p in
            let cycle := nbr :: z :: r.1 ++ [r.2] in
            let* w' := disqualify_and_label w (find_lowest w cycle) in
            Ok (BState w' (bs_feats st) (bs_stack st) (bs_look st) (<[nbr := z :: pn]> (bs_expl st))
                  (nbr :: z :: r.1))
        end
    end.

  (** lines 79-111: the loop over the stack. *)
  Fixpoint search (fuel : nat) (root : node) (st : bstate) : res bstate :=
    match fuel with
    | O => Err OutOfFuel
    | S fuel =>
        match bs_stack st with
        | [] => Ok st
        | z :: stack =>
            let st' := BState (bs_world st) (bs_feats st) stack (bs_look st) (bs_expl st) (bs_cyc st) in
            if dead (bs_world st) z then
              search fuel root (BState (bs_world st) (pop_feat z (bs_feats st)) stack (bs_look st)
                                  (bs_expl st) (bs_cyc st))
            else
              let* st'' := foldM (visit root z) (feature_neighbors (bs_world st) z) st' in
              search fuel root st''
        end
    end.

  Definition search_init (w : world) (features : list nat) (root : node) : bstate :=
    BState w features [root] {[root := root]} {[root := []]} [].

  (** Enough for every node once, and for the final test. *)
  Definition search_fuel (w : world) : nat := S (length (w_saddles w) + length (w_summits w)).

  (** lines 112-114: removal of the explored features that are not on the last
      cycle. *)
  Definition drop_exempt (look : gmap node node) (cyc : list node) (l : list nat) : list nat :=
    filter (fun i => look !! Sad i = None \/ Sad i ∈ cyc) l.

  (** lines 69-117: the outer loop; [features] latest entry first. *)
  Fixpoint basin_loop (fuel : nat) (w : world) (features : list nat) : res world :=
    match fuel with
    | O => Err OutOfFuel
    | S fuel =>
        match features with
        | [] => Ok w
        | r :: features =>
            if dead w (Sad r) then basin_loop fuel w features
            else
              let* st := search (search_fuel w) (Sad r) (search_init w features (Sad r)) in
              let left_ := drop_exempt (bs_look st) (bs_cyc st) (bs_feats st) in
              basin_loop fuel (bs_world st)
                (if decide (bs_cyc st = []) then left_ else r :: left_)
        end
    end.

  (** lines 39-120 [disqualify_basin_saddles] for the container [saddles]. *)
  Definition disqualify_basin_saddles (fuel : nat) (w : world) (saddles : list nat) : res world :=
    let features := sort_ele w (dict_keys [] saddles) in
    basin_loop fuel (stub_phase w features) (rev features).
End basin.
