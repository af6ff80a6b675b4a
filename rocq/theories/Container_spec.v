(** Independent description of containers and comparisons. *)
From Verif Require Import Container_model.
Local Open Scope Z_scope.

(** The classes whose objects can be added to a container, and those it can be
    created from.  The two differ for runoffs. *)
Definition accepts (k : ckind) (c : cls) : Prop :=
  match k, c with
  | SpotC, (CSpot | CSummit | CSaddle | CRunoff) => True
  | SummitsC, CSummit => True
  | SaddlesC, (CSaddle | CRunoff) => True
  | RunoffsC, (CSaddle | CRunoff) => True
  | _, _ => False
  end.
#[global] Instance accepts_dec k c : Decision (accepts k c).
Proof. destruct k, c; apply _. Defined.
Definition belongs (k : ckind) (c : cls) : Prop := accepts k c /\ (k = RunoffsC -> c = CRunoff).

(** The objects that a call adds: all of them or, if one is of the wrong class,
    none. *)
Definition adds (k : ckind) (o : cop) : list item :=
  let good (x : item) := accepts k (it_cls x) in
  match o with
  | OAppend x => if decide (good x) then [x] else []
  | OExtend l => if decide (Forall good l) then l else []
  | OSet _ _ => []
  end.
Definition is_set (o : cop) : bool := match o with OSet _ _ => true | _ => false end.
(** [l'] is [l] with [x] at the position that Python calls [i]: counted from the
    end if negative. *)
Definition put_in {A} (l : list A) (i : Z) (x : A) (l' : list A) : Prop :=
  let n := Z.of_nat (length l) in
  length l' = length l /\ forall j : nat, l' !! j = if decide (Z.of_nat j = i mod n) then Some x else l !! j.
(** The last object with id [i] of a list. *)
Definition last_with (i : nat) (l : list item) (x : item) : Prop :=
  exists l1 l2, l = l1 ++ x :: l2 /\ it_id x = i /\ Forall (fun y => it_id y <> i) l2.

(** Equality of strings up to the case of ASCII letters. *)
Definition same_letter (a b : ascii) : Prop :=
  a = b \/ exists n, (65 <= n <= 90)%nat /\
    ((a = ascii_of_nat n /\ b = ascii_of_nat (n + 32)) \/ (b = ascii_of_nat n /\ a = ascii_of_nat (n + 32))).
Definition same_word (a b : string) : Prop :=
  Forall2 same_letter (list_ascii_of_string a) (list_ascii_of_string b).
(** The unit names and their lengths in meters. *)
Definition unit_names : list (string * Q) :=
  [("meters", 1#1); ("meter", 1#1); ("m", 1#1);
   ("kilometers", 1000#1); ("kilometer", 1000#1); ("km", 1000#1);
   ("feet", 3048#10000); ("foot", 3048#10000); ("ft", 3048#10000);
   ("miles", 1609344#1000); ("mile", 1609344#1000); ("mi", 1609344#1000)]%string.
Definition unit_is (u : string) (f : Q) : Prop := exists n, (n, f) ∈ unit_names /\ same_word u n.

(** [l'] consists of the members of [l] that satisfy [P], in the same order. *)
Inductive picks {A} (P : A -> Prop) : list A -> list A -> Prop :=
  | picks_nil : picks P [] []
  | picks_in x l l' : P x -> picks P l l' -> picks P (x :: l) (x :: l')
  | picks_out x l l' : ~ P x -> picks P l l' -> picks P (x :: l) l'.

(** Strictly between two numbers given in any order. *)
Definition strictly_within (a b x : Q) : Prop := (a < x /\ x < b \/ b < x /\ x < a)%Q.

(** Two coordinates that are neither equal nor unequal: exactly one of them is
    zero and the other is rounded to zero. *)
Definition near_zero (a b : Q) : Prop :=
  (a == 0 /\ ~ b == 0 \/ ~ a == 0 /\ b == 0)%Q /\ round6 a = 0 /\ round6 b = 0.

(** Equality of two coordinates as the code computes it: zero counts as missing,
    other values are rounded to six decimals. *)
Definition blank (c : option Q) : Prop := forall q, c = Some q -> (q == 0)%Q.
Definition same_coord (c d : option Q) : Prop :=
  (blank c /\ blank d) \/
  exists p q, c = Some p /\ d = Some q /\ ~ (p == 0)%Q /\ ~ (q == 0)%Q /\ round6 p = round6 q.
Definition same_place (a b : location) : Prop :=
  same_coord (lc_lat a) (lc_lat b) /\ same_coord (lc_lon a) (lc_lon b) /\ (lc_ele a == lc_ele b)%Q.
Definition same_item (a b : item) : Prop :=
  same_coord (Some (it_lat a)) (Some (it_lat b)) /\ same_coord (Some (it_lon a)) (Some (it_lon b)) /\ (it_ele a == it_ele b)%Q.

(** Two lists of objects that agree at each elevation, in order. *)
Definition level_by_level {A} (ele : A -> Q) (same : A -> A -> Prop) (l k : list A) : Prop :=
  forall e l' k', picks (fun x => (ele x == e)%Q) l l' -> picks (fun x => (ele x == e)%Q) k k' -> Forall2 same l' k'.

(** Equal inputs of the hash function, hence equal hashes. *)
Definition hkey_same (a b : hkey) : Prop :=
  match a, b with
  | HNums x y e, HNums x' y' e' => x = x' /\ y = y' /\ (e == e')%Q
  | HPair x y, HPair x' y' => x = x' /\ y = y'
  | _, _ => False
  end.
