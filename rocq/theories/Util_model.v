(** Model of /repo/pyprom/lib/util.py and
    /repo/pyprom/lib/fastlookup/fastlookup.py. *)
From Verif Require Export Graph_model.
From Coq Require Export Ascii Qabs.
From stdpp Require Export strings.
Local Open Scope Z_scope.

(** ** Degrees *)

(** [int(q)]: truncation towards zero. *)
Definition py_int (q : Q) : Z := Z.quot (Qnum q) (Zpos (Qden q)).

(** util.py:19-31 [dottedDecimaltoDegrees].  Simplification: exact rationals. *)
Definition dotted_to_dms (coordinate : Q) : Z * Z * Q :=
  let degrees := py_int coordinate in
  let md := (Qabs (coordinate - inject_Z degrees) * (60 # 1))%Q in
  let minutes := py_int md in
  let seconds := ((md - inject_Z minutes) * (60 # 1))%Q in
  (degrees, minutes, seconds).

(** util.py:34-46 [degreesToDottedDecimal]; the result is the number of
    millionths. *)
Definition dms_to_dotted (deg mnt : Z) (sec : Q) : Z :=
  round6 (inject_Z deg + inject_Z mnt / (60 # 1) + sec / (3600 # 1)).

(** util.py:101-118 *)
Definition seconds_to_arcseconds (s : Q) : Q := (s * (3600 # 1))%Q.
Definition arcseconds_to_seconds (s : Q) : Q := (s / (3600 # 1))%Q.

(** ** Strings and files *)

(** util.py:90-98 [compressRepetetiveChars]: the keys of [itertools.groupby]. *)
Fixpoint compress_from (c : ascii) (s : string) : string :=
  match s with
  | EmptyString => String c EmptyString
  | String d s => if ascii_dec c d then compress_from c s else String c (compress_from d s)
  end.
Definition compress (s : string) : string :=
  match s with EmptyString => EmptyString | String c s => compress_from c s end.

(** [f.read(n)] on the rest of a binary file: at most [n] bytes, everything for
    a negative [n]. *)
Definition file_read (n : Z) (rest : list ascii) : list ascii * list ascii :=
  if n <? 0 then (rest, []) else (firstn (Z.to_nat n) rest, skipn (Z.to_nat n) rest).

(** util.py:133-150 [checksum].  The state of a hash object is the concatenation
    of what has been fed to it (hashlib: repeated calls of [update] are
    equivalent to one call with the concatenation); [hexdigest] is a function of
    it.  [iter(f, b'')] stops at the first empty read. *)
Section checksum.
  Context {D : Type} (digest : list ascii -> D) (block_size : Z).
  Fixpoint checksum_loop (fuel : nat) (n : Z) (fed rest : list ascii) : res D :=
    match fuel with
    | O => Err OutOfFuel
    | S fuel =>
        let '(chunk, rest) := file_read n rest in
        match chunk with
        | [] => Ok (digest fed)
        | _ :: _ => checksum_loop fuel n (fed ++ chunk) rest
        end
    end.
  Definition checksum (chunk_num_blocks : Z) (content : list ascii) : res D :=
    checksum_loop (S (S (length content))) (chunk_num_blocks * block_size) [] content.
End checksum.

(** ** FastLookup *)

Section fastlookup.
  Context {K V : Type} `{Countable K} (leb : K -> K -> bool).

  (** fastlookup.py:28-29.  [fl_hash] is a defaultdict(dict); an entry can be
      [None]. *)
  Record fastlookup := FL { fl_hash : gmap K (gmap K (option V)); fl_default : option V }.

  (** [lookup_hash[x]] of a defaultdict: a missing key is added. *)
  Definition row (x : K) (t : gmap K (gmap K (option V))) : gmap K (option V) := default ∅ (t !! x).
  Definition touch (x : K) (t : gmap K (gmap K (option V))) : gmap K (gmap K (option V)) := <[x := row x t]> t.

  (** fastlookup.py:66-72 [set] *)
  Definition fl_put (x y : K) (v : option V) (t : gmap K (gmap K (option V))) : gmap K (gmap K (option V)) :=
    <[x := <[y := v]> (row x t)]> t.
  Definition fl_set (x y : K) (v : option V) (f : fastlookup) : fastlookup := FL (fl_put x y v (fl_hash f)) (fl_default f).
  (** fastlookup.py:74-80 [get]: the value and the new state *)
  Definition fl_get (x y : K) (f : fastlookup) : option V * fastlookup :=
    (default (fl_default f) (row x (fl_hash f) !! y), FL (touch x (fl_hash f)) (fl_default f)).
  (** fastlookup.py:82-87 [remove] *)
  Definition fl_remove (x y : K) (f : fastlookup) : fastlookup := fl_set x y None f.

  (** fastlookup.py:21-64, the constructor for points given with their values
      (True for plain points or with [only_existence]); the first coordinate is
      x or the latitude. *)
  Definition fl_new (points : list (K * K * option V)) (d : option V) : fastlookup :=
    FL (foldl (fun t p => fl_put p.1.1 p.1.2 p.2 t) ∅ points) d.

  (** fastlookup.py:89-104 [slice]: [x.keys()] is called on the first coordinate,
      which is a number. *)
  Definition fl_slice (lowerx upperx : K) (f : fastlookup) : res fastlookup :=
    if existsb (fun r => leb r.1 upperx && leb lowerx r.1) (map_to_list (fl_hash f))
    then Err AttributeError
    else Ok (fl_new [] (fl_default f)).

  Inductive flop := FSet (x y : K) (v : option V) | FGet (x y : K) | FRemove (x y : K).
  Definition fl_do (f : fastlookup) (o : flop) : fastlookup :=
    match o with
    | FSet x y v => fl_set x y v f
    | FGet x y => (fl_get x y f).2
    | FRemove x y => fl_remove x y f
    end.
End fastlookup.
Arguments fastlookup K V {_ _}.
Arguments flop K V : clear implicits.
