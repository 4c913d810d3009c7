(** C53: FrozenDict. *)
From Verif Require Import Base BaseFacts MapModel MapProofs.
From Coq Require Import Strings.String.
Local Open Scope string_scope.
Local Open Scope list_scope.
Local Open Scope Z_scope.

(** Whatever the program does afterwards to the dictionaries it holds (or to frozen
    ones: hashing, deriving new ones), the contents of a frozen dictionary stay. *)
Theorem C53_frozen : forall V hash2 ops1 ops2 f,
  0 <= f < zlen (s_frozen V (run V hash2 (start V) ops1)) ->
  contents V (run V hash2 (start V) (ops1 ++ ops2)) f = contents V (run V hash2 (start V) ops1) f.
Proof. intros V. exact frozen_stays. Qed.
Print Assumptions C53_frozen.

(** A frozen dictionary looks up the last keyword given, else what its source holds
    at that moment; its keys are distinct, in the order of the source. *)
Theorem C53_lookup : forall V hash2 ops a kw f s', let s := run V hash2 (start V) ops in
  freeze V s a kw = (f, s') ->
  (forall k, dget V (contents V s' f) k =
     match dget V (rev (str_items V kw)) k with Some v => Some v | None => dget V (heap_get V s a) k end) /\
  NoDup (keys V s' f) /\ (kw = [] -> keys V s' f = map fst (heap_get V s a)) /\
  (forall g, 0 <= g < zlen (s_frozen V s) -> 0 <= g < zlen (s_frozen V s') /\ contents V s' g = contents V s g).
Proof. intros V. exact freeze_spec. Qed.
Print Assumptions C53_lookup.

(** Reading gives the item stored, membership and length follow the keys. *)
Theorem C53_reading : forall V hash2 ops f k, let s := run V hash2 (start V) ops in
  (forall v, getitem V s f k = Ok v <-> In (k, v) (contents V s f)) /\
  (getitem V s f k = Err KeyError <-> ~ In k (map fst (contents V s f))) /\
  (contains V s f k = true <-> In k (map fst (contents V s f))) /\
  len V s f = zlen (keys V s f) /\ NoDup (keys V s f).
Proof. intros V. exact reading_spec. Qed.
Print Assumptions C53_reading.

(** [new] with keywords, for string keys, is a further frozen dictionary: the keywords, else what
    the old one had; the old one stays. *)
Theorem C53_new : forall V hash2 ops f kw, let s := run V hash2 (start V) ops in
  0 <= f < zlen (s_frozen V s) -> (forall k, In k (keys V s f) -> exists x, k = KStr x) ->
  exists g s', new V s f kw = (Ok g, s') /\
    (forall k, dget V (contents V s' g) k =
       match dget V (rev (str_items V kw)) k with Some v => Some v | None => dget V (contents V s f) k end) /\
    NoDup (keys V s' g) /\
    (forall h, 0 <= h < zlen (s_frozen V s) -> 0 <= h < zlen (s_frozen V s') /\ contents V s' h = contents V s h) /\ g <> f.
Proof. intros V. exact new_spec. Qed.
Print Assumptions C53_new.

(** The hash, cached or not, is the exclusive or of the hashes of the items. *)
Theorem C53_hash : forall V hash2 ops f, let s := run V hash2 (start V) ops in
  0 <= f < zlen (s_frozen V s) -> fst (hash V hash2 s f) = hash_items V hash2 0 (contents V s f).
Proof. intros V. exact hash_spec. Qed.
Print Assumptions C53_hash.

(** Equality is equality of lookups ... *)
Theorem C53_equal : forall V hash2 veq ops f g, let s := run V hash2 (start V) ops in
  frozen_eq V veq s f g = true <->
  (forall k, match dget V (contents V s f) k, dget V (contents V s g) k with
             | Some v, Some u => veq v u = true | None, None => True | _, _ => False end).
Proof. intros V. exact eq_spec. Qed.
Print Assumptions C53_equal.

(** ... and equal frozen dictionaries hash equally (or both fail), whatever the
    insertion order. *)
Theorem C53_equal_hash : forall V hash2 veq ops f g, let s := run V hash2 (start V) ops in
  0 <= f < zlen (s_frozen V s) -> 0 <= g < zlen (s_frozen V s) ->
  (forall k v u, veq v u = true -> hash2 k v = hash2 k u) ->
  frozen_eq V veq s f g = true -> fst (hash V hash2 s f) = fst (hash V hash2 s g).
Proof. intros V. exact eq_hash. Qed.
Print Assumptions C53_equal_hash.

(** new of a dictionary with a key that is not a string always raises. *)
Theorem C53_new_other_key : forall V hash2 ops f kw n, let s := run V hash2 (start V) ops in
  In (KObj n) (keys V s f) -> new V s f kw = (Err TypeError, s).
Proof. intros V. exact new_other. Qed.
Print Assumptions C53_new_other_key.

(** ** Witnesses: two dictionaries with the same items in different order, frozen;
    then the first is changed and one frozen dictionary is hashed. *)
Definition h (k : pykey) (v : Z) : option Z := match k with KStr s => Some (Z.of_nat (String.length s) * 5 + v) | KObj n => Some (n + v) end.
Definition made : list (step Z) :=
  [NewDict Z [(KStr "a", 1); (KStr "bc", 2); (KStr "a", 3)]; NewDict Z [(KStr "bc", 2); (KStr "a", 3)]; Freeze Z 0 []; Freeze Z 1 [("d", 4)]; Freeze Z 1 []].
Definition later : list (step Z) := [SetItem Z 0 (KStr "a") 9; DelItem Z 1 (KStr "bc"); Hash Z 0; New Z 0 [("a", 7)]].
Example C53_witness : let s := run Z h (start Z) (made ++ later) in
  contents Z s 0 = [(KStr "a", 3); (KStr "bc", 2)] /\ contents Z s 1 = [(KStr "bc", 2); (KStr "a", 3); (KStr "d", 4)] /\
  contents Z s 3 = [(KStr "a", 7); (KStr "bc", 2)] /\ heap_get Z s 0 = [(KStr "a", 9); (KStr "bc", 2)] /\
  frozen_eq Z Z.eqb s 0 2 = true /\ frozen_eq Z Z.eqb s 0 1 = false /\ fst (hash Z h s 0) = Ok 4 /\ fst (hash Z h s 2) = Ok 4.
Proof. vm_compute. repeat split. Qed.

(** The docstring: a drop-in replacement for dictionaries. new(x=...) of
    FrozenDict({1: 2}) raises instead of returning an updated copy. *)
Theorem C53_new_any_key_refuted : let s := run Z h (start Z) [NewDict Z [(KObj 1, 2)]; Freeze Z 0 []] in
  contents Z s 0 = [(KObj 1, 2)] /\ fst (new Z s 0 [("x", 3)]) = Err TypeError.
Proof. vm_compute. split; reflexivity. Qed.
Print Assumptions C53_new_any_key_refuted.
Example C53_reading_witness : let s := run Z h (start Z) (made ++ later) in
  getitem Z s 0 (KStr "a") = Ok 3 /\ getitem Z s 0 (KStr "d") = Err KeyError /\ contains Z s 1 (KStr "d") = true /\ len Z s 1 = 3.
Proof. vm_compute. repeat split; reflexivity. Qed.
