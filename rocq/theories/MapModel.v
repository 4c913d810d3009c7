(** Model of FrozenDict (dascore/utils/mapping.py) in a heap of python dictionaries.

    Keys are strings or other hashable objects (identified by equality class, an
    integer); values are any type with python's == given. Dictionaries are
    association lists in insertion order. User code holds references to the
    dictionaries it created and may change them at any time; it does not reach
    into the private attribute [_dict]. *)
From Verif Require Import Base.
From Coq Require Import Strings.String.
Local Open Scope Z_scope.
Local Open Scope list_scope.

Inductive pykey := KStr (s : string) | KObj (n : Z).
Definition key_eqb (a b : pykey) : bool :=
  match a, b with KStr s, KStr t => String.eqb s t | KObj m, KObj n => Z.eqb m n | _, _ => false end.

Section Maps.
  Variable V : Type.
  Variable veq : V -> V -> bool.                 (* python's == on values *)
  Variable hash2 : pykey -> V -> option Z.        (* hash((key, value)); None: unhashable *)

  Definition dict := list (pykey * V).
  Fixpoint dget (d : dict) (k : pykey) : option V :=
    match d with [] => None | (k', v) :: t => if key_eqb k k' then Some v else dget t k end.
  (** d[k] = v keeps the place of an existing key. *)
  Fixpoint dset (d : dict) (k : pykey) (v : V) : dict :=
    match d with [] => [(k, v)] | (k', w) :: t => if key_eqb k k' then (k', v) :: t else (k', w) :: dset t k v end.
  Definition ddel (d : dict) (k : pykey) : dict := filter (fun p => negb (key_eqb k (fst p))) d.
  Definition dupdate (d : dict) (new : list (pykey * V)) : dict := fold_left (fun d p => dset d (fst p) (snd p)) new d.

  (** A FrozenDict instance: the address of its private dictionary and the cached hash. *)
  Record frozen := mkFrozen { f_at : Z; f_hash : option Z }.
  Record state := mkState { s_heap : list dict; s_owned : list Z; s_frozen : list frozen }.
  Definition start : state := mkState [] [] [].

  Definition heap_get (s : state) (a : Z) : dict := match znth (s_heap s) a with Some d => d | None => [] end.
  Fixpoint replace_at {A} (l : list A) (n : nat) (x : A) : list A :=
    match l, n with [], _ => [] | _ :: t, O => x :: t | y :: t, S n => y :: replace_at t n x end.
  Definition heap_set (s : state) (a : Z) (d : dict) : state :=
    mkState (if a <? 0 then s_heap s else replace_at (s_heap s) (Z.to_nat a) d) (s_owned s) (s_frozen s).
  Definition alloc (s : state) (d : dict) : Z * state :=
    (zlen (s_heap s), mkState (s_heap s ++ [d]) (s_owned s) (s_frozen s)).

  (** User code: a new dictionary, an item assignment, a deletion, an update. *)
  Definition new_dict (s : state) (kvs : list (pykey * V)) : Z * state :=
    let '(a, s) := alloc s (dupdate [] kvs) in (a, mkState (s_heap s) (s_owned s ++ [a]) (s_frozen s)).

  (** mapping.py 33-35: dict( *args, **kwargs) of a dictionary and keyword arguments. *)
  Definition str_items (kw : list (string * V)) : list (pykey * V) := map (fun p => (KStr (fst p), snd p)) kw.
  Definition freeze (s : state) (a : Z) (kw : list (string * V)) : Z * state :=
    let '(b, s) := alloc s (dupdate (dupdate [] (heap_get s a)) (str_items kw)) in
    (zlen (s_frozen s), mkState (s_heap s) (s_owned s) (s_frozen s ++ [mkFrozen b None])).

  (** The contents of frozen number f; mapping.py 37-41, 49-53. *)
  Definition contents (s : state) (f : Z) : dict :=
    match znth (s_frozen s) f with Some x => heap_get s (f_at x) | None => [] end.
  Definition getitem (s : state) (f : Z) (k : pykey) : result V :=
    match dget (contents s f) k with Some v => Ok v | None => Err KeyError end.
  Definition contains (s : state) (f : Z) (k : pykey) : bool :=
    match dget (contents s f) k with Some _ => true | None => false end.
  Definition keys (s : state) (f : Z) : list pykey := map fst (contents s f).
  Definition len (s : state) (f : Z) : Z := zlen (contents s f).

  (** mapping.py 43-47: [new] copies, updates and calls the class with the contents
      as keyword arguments, which must be strings. *)
  Fixpoint as_kwargs (d : dict) : result (list (string * V)) :=
    match d with
    | [] => Ok []
    | (KStr s, v) :: t => do r <- as_kwargs t; Ok ((s, v) :: r)
    | (KObj _, _) :: _ => Err TypeError
    end.
  Definition new (s : state) (f : Z) (kw : list (string * V)) : result Z * state :=
    match as_kwargs (dupdate (dupdate [] (contents s f)) (str_items kw)) with
    | Err e => (Err e, s)
    | Ok all =>
        let '(b, s) := alloc s (dupdate [] (str_items all)) in
        (Ok (zlen (s_frozen s)), mkState (s_heap s) (s_owned s) (s_frozen s ++ [mkFrozen b None]))
    end.

  (** mapping.py 58-68. *)
  Fixpoint hash_items (out : Z) (d : dict) : result Z :=
    match d with
    | [] => Ok out
    | (k, v) :: t => match hash2 k v with Some h => hash_items (Z.lxor out h) t | None => Err TypeError end
    end.
  Definition hash (s : state) (f : Z) : result Z * state :=
    match znth (s_frozen s) f with
    | None => (Err TypeError, s)
    | Some x =>
        match f_hash x with
        | Some h => (Ok h, s)
        | None =>
            match hash_items 0 (heap_get s (f_at x)) with
            | Err e => (Err e, s)
            | Ok h => (Ok h, mkState (s_heap s) (s_owned s) (replace_at (s_frozen s) (Z.to_nat f) (mkFrozen (f_at x) (Some h))))
            end
        end
    end.

  (** collections.abc.Mapping.__eq__: dict(self.items()) == dict(other.items()). *)
  Definition dict_eq (a b : dict) : bool :=
    Z.eqb (zlen a) (zlen b) &&
    forallb (fun p => match dget b (fst p) with Some v => veq (snd p) v | None => false end) a.
  Definition frozen_eq (s : state) (f g : Z) : bool := dict_eq (dupdate [] (contents s f)) (dupdate [] (contents s g)).

  (** What a program can do. *)
  Inductive step :=
    | NewDict (kvs : list (pykey * V))
    | SetItem (a : Z) (k : pykey) (v : V)
    | DelItem (a : Z) (k : pykey)
    | Freeze (a : Z) (kw : list (string * V))
    | New (f : Z) (kw : list (string * V))
    | Hash (f : Z).
  Definition owned (s : state) (a : Z) : bool := existsb (Z.eqb a) (s_owned s).
  Definition apply (s : state) (o : step) : state :=
    match o with
    | NewDict kvs => snd (new_dict s kvs)
    | SetItem a k v => if owned s a then heap_set s a (dset (heap_get s a) k v) else s
    | DelItem a k => if owned s a then heap_set s a (ddel (heap_get s a) k) else s
    | Freeze a kw => if owned s a then snd (freeze s a kw) else s
    | New f kw => snd (new s f kw)
    | Hash f => snd (hash s f)
    end.
  Definition run (s : state) (ops : list step) : state := fold_left apply ops s.
End Maps.
