(** Specification of C79: what a hash may be assumed to do. *)
From Verif Require Export Hash_model Container_spec.
Local Open Scope Z_scope.

(** Equal inputs have equal hashes. *)
Definition respects (h : hkey -> Z) : Prop := forall a b, hkey_same a b -> h a = h b.
(** No two different inputs have the same hash. *)
Definition no_collision {A} (h : A -> Z) : Prop := forall a b, h a = h b -> a = b.
(** A location with both coordinates. *)
Definition placed (a : location) : Prop := is_Some (lc_lat a) /\ is_Some (lc_lon a).
(** Only equal inputs have the same hash. *)
Definition tells_apart (h : hkey -> Z) : Prop := forall a b, h a = h b -> hkey_same a b.
