(** Model of the whole analysis: discovery, walk and basin saddle detection.
    Sources: pyprom/domain_map.py. *)
From Verif Require Import Base_model Walk_model Basin_model.

(** domain_map.py:352-358 [detect_basin_saddles].  [fuel] bounds the rounds of
    the detection loop. *)
Definition dm_detect (fuel : nat) (m : datamap) (d : dmap) : res dmap :=
  let* w := disqualify_basin_saddles m fuel (mp_world d) (mp_saddles d) in
  Ok (DMap w (mp_summits d) (mp_saddles d) (mp_runoffs d) (mp_linkers d)).

(** The containers made by discovery when the saddles are given as objects. *)
Definition dm_objects (su : list feature) (objs : list saddle) (ru : list feature) : dmap :=
  DMap (World (objs ++ map new_saddle ru) (map new_summit su) [])
    (seq 0 (length su)) (seq 0 (length objs)) (seq (length objs) (length ru)) [].

(** The number of the next saddle that was kept. *)
Fixpoint next_kept (n : nat) (rs : list rsaddle) : nat :=
  match rs with
  | New _ _ _ _ :: rs => next_kept (S n) rs
  | _ => n
  end.
(** The objects in the container returned by rebuildSaddles (saddles.py:57-115
    and internal_saddle_network.py:207-231), numbered in order from [n]: a new
    saddle made from a border saddle has that saddle, which follows it, as
    parent, and the border saddle has all of them as children, in order. *)
Fixpoint rebuilt_objects (n : nat) (children : list nat) (rs : list rsaddle) : list saddle :=
  match rs with
  | [] => []
  | New pos e hpn None :: rs =>
      new_saddle (Feat KSaddle pos e [] false [] hpn) :: rebuilt_objects (S n) children rs
  | New pos e hpn (Some _) :: rs =>
      set_parent (Some (next_kept (S n) rs)) (new_saddle (Feat KSaddle pos e [] false [] hpn)) ::
      rebuilt_objects (S n) (children ++ [n]) rs
  | Kept f dq :: rs =>
      set_over (if dq then Some true else None) (set_children children (new_saddle f)) ::
      rebuilt_objects (S n) [] rs
  end.

(** domain_map.py:113-114 with [rebuildSaddles=True]. *)
Definition dm_rebuilt fp orc near (m : datamap) : res dmap :=
  let* (su, rs, ru) := run_rebuild fp orc near m in
  Ok (dm_objects su (rebuilt_objects 0 [] rs) ru).

(** domain_map.py:91-131 [run] with all its arguments. *)
Definition dm_run_with fpath fp orc near (fuel : nat) (sparse superSparse rebuild : bool) (m : datamap) : res dmap :=
  let* d := (if rebuild then dm_rebuilt fp orc near m
             else let* (su, sa, ru) := run_no_rebuild fp orc m in Ok (dm_start su sa ru)) in
  if superSparse then Ok d else
  let* (d, _) := dm_walk fpath near m d in
  if sparse then Ok d else dm_detect fuel m d.

(** domain_map.py:91-131 [run] with the default arguments. *)
Definition dm_run fpath fp orc near (fuel : nat) (m : datamap) : res dmap :=
  let* (d, _) := dm_run_sparse fpath fp orc near m in
  dm_detect fuel m d.
