(** Proofs about elevations asked for at positions outside the map. *)
From Verif Require Import Base_model Raster_model Raster_spec Raster_proof.
From Coq Require Import ZifyBool.
Local Open Scope Z_scope.

Lemma index_wraps mx i : match np_index mx i with
  | Ok k => 0 <= k <= mx /\ (i = k \/ i = k - (mx + 1))
  | Err e => e = IndexError /\ (i < - (mx + 1) \/ mx < i)
  end.
Proof.
  unfold np_index. destruct ((0 <=? i) && (i <=? mx)) eqn:E; [split; [lia|by left]|].
  destruct ((i <? 0) && (- (mx + 1) <=? i)) eqn:E'; [split; [lia|right; lia]|]. split; [done|lia].
Qed.
Lemma off_map m x y : north_up m ->
  match dm_elevation m (xy_to_latlon m x y).1 (xy_to_latlon m x y).2 with
  | Ok e => exists i j, in_map m (i, j) /\ (x = i \/ x = i - (dm_max_x m + 1)) /\ (y = j \/ y = j - (dm_max_y m + 1)) /\ e = elev m (i, j)
  | Err e => e = IndexError /\ (x < - (dm_max_x m + 1) \/ dm_max_x m < x \/ y < - (dm_max_y m + 1) \/ dm_max_y m < y)
  end.
Proof.
  intros (H2 & H4 & H1 & H5). unfold dm_elevation. rewrite latlon_round_trip by done. cbn [rbind fst snd]. unfold dm_get, np_read.
  pose proof (index_wraps (dm_max_x m) x) as Hx. destruct (np_index (dm_max_x m) x) as [i|e]; cbn [rbind].
  2: { destruct Hx as [-> [?|?]]; split; auto. }
  pose proof (index_wraps (dm_max_y m) y) as Hy. destruct (np_index (dm_max_y m) y) as [j|e]; cbn [rbind].
  2: { destruct Hy as [-> [?|?]]; split; auto. }
  destruct Hx as [Hx Hx'], Hy as [Hy Hy']. exists i, j. split; [by split|]. split; [done|]. by split.
Qed.
