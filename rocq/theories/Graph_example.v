(** A small object graph used as a concrete case. *)
From Verif Require Import Graph_model Graph_spec Example_maps.
Local Open Scope Z_scope.

Definition ex_map : datamap :=
  row_map [[1; 1; 1; 1]; [1; 5; 2; 6]; [1; 1; 1; 1]] (Some (-99)) unit_gt.
Definition at_ (k : kind) (p : xy) (e : Z) : feature := Feat k p e [] false [] [].

(** Saddle 0 is the parent of 1 and 2 and an alternative of 3; saddles 0 to 3
    have one or two links to the summits 0 and 1. *)
Definition ex_world (p2 : xy) : world :=
  World
    [Saddle (at_ KSaddle (1, 2) 2) [0; 1]%nat None [1; 2]%nat false true [3]%nat None;
     Saddle (at_ KSaddle (0, 2) 2) [2; 3]%nat (Some 0%nat) [] false false [] None;
     Saddle (at_ KSaddle p2 2) [4]%nat (Some 0%nat) [] true false [] None;
     Saddle (at_ KSaddle (2, 1) 2) [5; 6]%nat None [] false true [0]%nat None]
    [Summit (at_ KSummit (1, 1) 5) [0; 2; 4; 5]%nat (Some [0; 1; 2; 3]%nat);
     Summit (at_ KSummit (1, 3) 6) [1; 3; 6]%nat (Some [0; 1; 3]%nat)]
    [Link 0 0 false; Link 1 0 false; Link 0 1 false; Link 1 1 false; Link 0 2 true; Link 0 3 false;
     Link 1 3 false].
(** All places different, and one where saddles 1 and 2 share a place. *)
Definition w_apart : world := ex_world (2, 2).
Definition w_shared : world := ex_world (0, 2).
Definition ex_dmap : dmap := DMap w_apart [0; 1]%nat [0; 1; 2]%nat [3]%nat [0; 1; 2; 3; 4; 5; 6]%nat.

Lemma w_apart_family : family w_apart.
Proof.
  split.
  - intros c p. split.
    + intros H. destruct c as [|[|[|[|c]]]]; try done; injection H as <-; vm_compute; repeat constructor.
    + intros H. destruct p as [|[|[|[|p]]]]; try (by apply elem_of_nil in H).
      cbn in H. rewrite !elem_of_cons, elem_of_nil in H. by destruct H as [->|[->|[]]].
  - intros a b H. destruct b as [|[|[|[|b]]]]; try (by apply elem_of_nil in H);
      cbn in H; apply elem_of_list_singleton in H; subst; vm_compute; repeat constructor.
Qed.

Lemma w_apart_siblings : siblings_apart ex_map w_apart.
Proof.
  split.
  - intros p x y Hx Hy (a & b & Ha & Hb & H & H' & _).
    destruct p as [|[|[|[|p]]]]; try (by apply elem_of_nil in Hx).
    cbn in Hx, Hy. rewrite !elem_of_cons, elem_of_nil in Hx, Hy.
    destruct Hx as [->|[->|[]]], Hy as [->|[->|[]]]; try done; cbn in Ha, Hb;
      injection Ha as <-; injection Hb as <-; vm_compute in H, H'; done.
  - intros p x y Hx Hy _.
    destruct p as [|[|[|[|p]]]]; try (by apply elem_of_nil in Hx);
      cbn in Hx, Hy; apply elem_of_list_singleton in Hx, Hy; congruence.
Qed.

Lemma w_apart_linked : linked_up w_apart.
Proof.
  split_and!.
  - intros i s k Hs. assert (k < 7 \/ 7 <= k)%nat as [Hk|Hk] by lia.
    + do 4 (destruct i as [|i]; [injection Hs as <-; cbn; do 7 (destruct k as [|k]; [split;
        [rewrite ?elem_of_cons, elem_of_nil; intros H; eexists; split; [reflexivity|cbn; lia]
        |intros (l & [= <-] & E); cbn in E; try lia; repeat constructor]|]); lia|]).
      by rewrite lookup_nil in Hs || done.
    + split.
      * intros H. exfalso. do 4 (destruct i as [|i]; [injection Hs as <-; cbn in H;
          rewrite ?elem_of_cons, elem_of_nil in H; lia|]). done.
      * intros (l & Hl & _). rewrite (proj2 (lookup_ge_None _ _)) in Hl; [done|cbn; lia].
  - intros i s k Hs. assert (k < 7 \/ 7 <= k)%nat as [Hk|Hk] by lia.
    + do 2 (destruct i as [|i]; [injection Hs as <-; cbn; do 7 (destruct k as [|k]; [split;
        [rewrite ?elem_of_cons, elem_of_nil; intros H; eexists; split; [reflexivity|cbn; lia]
        |intros (l & [= <-] & E); cbn in E; try lia; repeat constructor]|]); lia|]).
      done.
    + split.
      * intros H. exfalso. do 2 (destruct i as [|i]; [injection Hs as <-; cbn in H;
          rewrite ?elem_of_cons, elem_of_nil in H; lia|]). done.
      * intros (l & Hl & _). rewrite (proj2 (lookup_ge_None _ _)) in Hl; [done|cbn; lia].
  - intros k l Hl. do 7 (destruct k as [|k]; [injection Hl as <-; cbn; lia|]). done.
Qed.
