(** Independent vocabulary for purging a finished analysis. *)
From Verif Require Import Base_model Graph_model.

(** The links of every saddle that is flagged are marked. *)
Definition flags_on_links (w : world) : Prop :=
  forall i s k l, w_saddles w !! i = Some s -> sa_single s = true \/ sa_basin s = true ->
    k ∈ sa_links s -> w_links w !! k = Some l -> ln_disq l = true.
