(** Independent description of the family relations between saddles. *)
From Verif Require Import Base_model Network_model Graph_model Graph_spec.

(** Parent and child relations agree: a saddle is listed once, as a child, by its
    parent and by no other; parents are disqualified saddles on the border. *)
Definition families (w : world) : Prop :=
  (forall p i, parent_of w p = Some i <-> p ∈ children_of w i) /\ (forall i, NoDup (children_of w i)) /\
  (forall i p, p ∈ children_of w i -> exists o, w_saddles w !! i = Some o /\ disqualified o = true /\ ft_edge (sa_feat o) = true).
(** No object has links or domains. *)
Definition unlinked (w : world) : Prop :=
  w_links w = [] /\ (forall i o, w_saddles w !! i = Some o -> sa_links o = []) /\
  (forall a u, w_summits w !! a = Some u -> su_links u = [] /\ su_domain u = None).

(** The saddle [o] is a freshly stored element of the list made by splitting. *)
Definition made (r : rsaddle) (o : saddle) : Prop :=
  sa_links o = [] /\ sa_single o = false /\ sa_basin o = false /\
  match r with
  | New pos e hpn _ => sa_feat o = Feat KSaddle pos e [] false [] hpn /\ sa_over o = None
  | Kept f dq => sa_feat o = f /\ sa_over o = if dq then Some true else None
  end.
