(** Model of /repo/pyprom/dividetree.py. *)
From Verif Require Export Graph_model.
Local Open Scope Z_scope.

(** What a run changes.  [lp_exempt] is the dict [exempt] as the list of its
    keys in insertion order; [lp_paths] and [lp_edge] are the LPRPaths object;
    [lp_busted] is [self.busted]; [lp_at_saddle] and [lp_at_summit] are the
    [lprBoundary] lists of saddles and summits. *)
Record lpr := Lpr {
  lp_exempt : list nat;
  lp_paths : list (list nat * nat);
  lp_edge : bool;
  lp_busted : list nat;
  lp_at_saddle : nat -> list nat;
  lp_at_summit : nat -> list nat }.

Definition lp_mark (k : nat) (t : lpr) : lpr :=
  Lpr (lp_exempt t ++ [k]) (lp_paths t) (lp_edge t) (lp_busted t) (lp_at_saddle t) (lp_at_summit t).
Definition lp_report (path : list nat) (s : nat) (edge : bool) (t : lpr) : lpr :=
  Lpr (lp_exempt t) (lp_paths t ++ [(path, s)]) (edge || lp_edge t) (lp_busted t) (lp_at_saddle t) (lp_at_summit t).

(** dividetree.py:95: the limit of the recursion. *)
Definition max_depth : nat := 400.

Section divide.
  Variable m : datamap.
  Variable w : world.

  (** dividetree.py:95-100.  [in] on a list compares by equality. *)
  Definition lp_bust (master : nat) (t : lpr) : lpr :=
    if existsb (summit_same m w master) (lp_busted t) then t
    else Lpr (lp_exempt t) (lp_paths t) (lp_edge t) (lp_busted t ++ [master]) (lp_at_saddle t) (lp_at_summit t).

  (** dividetree.py:155-158 *)
  Definition lp_boundary (master s : nat) (t : lpr) : lpr :=
    let sb := if existsb (summit_same m w master) (lp_at_saddle t s) then lp_at_saddle t
              else fun i => if Nat.eqb i s then lp_at_saddle t s ++ [master] else lp_at_saddle t i in
    let mb := if existsb (saddle_same m w s) (lp_at_summit t master) then lp_at_summit t
              else fun i => if Nat.eqb i master then lp_at_summit t master ++ [s] else lp_at_summit t i in
    Lpr (lp_exempt t) (lp_paths t) (lp_edge t) (lp_busted t) sb mb.

  Section loops.
    (** The recursive call: [branchChaser(master, summit, depth, exempt, path, ...)] *)
    Variable recurse : nat -> list nat -> lpr -> lpr.
    Variables (master : nat) (branch_ele : Z) (path : list nat).

    (** dividetree.py:130-158, the body for one [nextSummitLinker].  [k], [l] is
        [linker].  References always lead to objects; the other case is left
        as it is. *)
    Definition next_step (k : nat) (l : link) (t : lpr) (j : nat) : lpr :=
      match w_links w !! j with
      | None => t
      | Some n =>
          if decide (j ∈ lp_exempt t) then t
          else if ln_disq l then t
          else
            match w_summits w !! ln_summit n with
            | None => t
            | Some su =>
                if (ft_ele (su_feat su) <=? branch_ele) && ft_edge (su_feat su) then
                  lp_report (path ++ [k]) (ln_saddle l) true t
                else if ft_ele (su_feat su) <=? branch_ele then
                  recurse (ln_summit n) (path ++ [k; j]) t
                else lp_boundary master (ln_saddle l) (lp_report (path ++ [k]) (ln_saddle l) false t)
            end
      end.

    (** dividetree.py:105-158, the body for one [linker]. *)
    Definition link_step (t : lpr) (k : nat) : lpr :=
      match w_links w !! k with
      | None => t
      | Some l =>
          if ln_disq l then t
          else if decide (k ∈ lp_exempt t) then t
          else
            let t := lp_mark k t in
            match w_saddles w !! ln_saddle l with
            | None => t
            | Some sa =>
                if disqualified sa then t
                else if ft_edge (sa_feat sa) then lp_report (path ++ [k]) (ln_saddle l) true t
                else foldl (next_step k l) t (linkers_to_summits_connected_via_saddle w true true k)
            end
      end.
  End loops.

  (** dividetree.py:78-158 [branchChaser]; [room] is [max_depth] minus the
      argument [depth]. *)
  Fixpoint branch_chaser (room : nat) (master branch : nat) (path : list nat) (t : lpr) : lpr :=
    match room with
    | O => lp_bust master t
    | S room =>
        match w_summits w !! branch with
        | None => t
        | Some b => foldl (link_step (branch_chaser room master) master (ft_ele (su_feat b)) path) t (su_links b)
        end
    end.

  (** The state that lives longer than one call: [busted] and the boundaries. *)
  Record tree := Tree {
    tr_busted : list nat;
    tr_at_saddle : nat -> list nat;
    tr_at_summit : nat -> list nat }.

  (** dividetree.py:67-74 [localProminentRegion] *)
  Definition local_prominent_region (summit : nat) (t : tree) : lpr :=
    branch_chaser max_depth summit summit [] (Lpr [] [] false (tr_busted t) (tr_at_saddle t) (tr_at_summit t)).

  (** spot_elevation.py:69-87 for the summits container, as a list of objects. *)
  Definition summit_ele (a : nat) : Z := from_option (fun s => ft_ele (su_feat s)) 0 (w_summits w !! a).
  Definition first_highest (summits : list nat) : res nat :=
    match summits with
    | [] => Err IndexError
    | a :: l => Ok (foldl (fun h b => if summit_ele h <? summit_ele b then b else h) a l)
    end.

  (** dividetree.py:49-63 [run]: the local highest summit (whose parent becomes
      itself) and for every summit its [lprPaths]. *)
  Definition run_tree (summits : list nat) (t : tree) : res (nat * list (nat * lpr) * tree) :=
    let* h := first_highest summits in
    let '(out, t) := foldl (fun (acc : list (nat * lpr) * tree) a =>
        let p := local_prominent_region a acc.2 in
        (acc.1 ++ [(a, p)], Tree (lp_busted p) (lp_at_saddle p) (lp_at_summit p)))
      ([], t) summits in
    Ok (h, out, t).
End divide.
