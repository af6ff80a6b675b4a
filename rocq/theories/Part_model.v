(** Walking from chosen saddles only. *)
From Verif Require Import Walk_model.

(** domain_map.py:320-336.  An empty list means that no saddles are given.  The
    result is the map and what is returned; [self.summit_domains], which becomes
    [ws_doms], is given with the locals of the walk. *)
Definition dm_walk_given fpath near (m : datamap) (given : list nat) (d : dmap)
    : res (dmap * option (list nat * list nat) * walk_state) :=
  match given with
  | [] => let* (d', s) := dm_walk fpath near m d in Ok (d', None, s)
  | _ =>
      let* s := climb_from_saddles fpath near m (mp_world d) (mp_summits d) given in
      let w := ws_world s in
      Ok (DMap w (mp_summits d) (mp_saddles d) (mp_runoffs d) (ws_linkers s),
          Some (filter (fun i => is_runoff w i = false) (ws_feats s), filter (fun i => is_runoff w i = true) (ws_feats s)), s)
  end.
