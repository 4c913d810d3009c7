(** Shared vocabulary: results, python indexing and slicing, numpy-style
    gathering, exact rounding.  No dascore code is modelled here; these are the
    python / numpy primitives the modelled functions call. *)
From Coq Require Export List ZArith Lia Bool.
Export ListNotations.
Global Open Scope Z_scope.

(** Exceptions as values. The constructors name the exception classes of
    dascore/exceptions.py and the python builtins the modelled code raises. *)
Inductive exn :=
  | CoordError | ParameterError | ValueError | IndexError | TypeError
  | KeyError | ZeroDivision | PatchError | AssertionError
  | ChunkError | CoordMergeError | CoordDataError | CoordSortError | AttributeMergeError
  | PatchBroadcastError | PatchCoordinateError | MissingPatchError | IncompatiblePatchError
  | UnknownFiberFormatError | InvalidFiberIOError | UnitError | FilterValueError
  | TimeError | NotImplemented | OverflowError | PatchAttributeError | AttributeError
  | Unmodelled.

Inductive result (A : Type) := Ok (a : A) | Err (e : exn).
Arguments Ok {A} a.
Arguments Err {A} e.

Definition bind {A B} (x : result A) (f : A -> result B) : result B :=
  match x with Ok a => f a | Err e => Err e end.
Notation "'do' x <- e ; k" := (bind e (fun x => k))
  (at level 200, x pattern, e at level 100, k at level 200).

(** ** Lists indexed by Z *)
Definition zlen {A} (l : list A) : Z := Z.of_nat (length l).

(** Strict lookup: negative or too large positions have no element. *)
Definition znth {A} (l : list A) (i : Z) : option A :=
  if i <? 0 then None else nth_error l (Z.to_nat i).

(** Python [range(n)] as a list. *)
Definition zrange (n : Z) : list Z := map Z.of_nat (seq 0 (Z.to_nat n)).

(** [l[i] for i in is]; [None] stands for IndexError. *)
Fixpoint gather {A} (l : list A) (is : list Z) : option (list A) :=
  match is with
  | [] => Some []
  | i :: t =>
      match znth l i, gather l t with
      | Some a, Some r => Some (a :: r)
      | _, _ => None
      end
  end.

(** Python's treatment of a negative index. *)
Definition wrap_index (n i : Z) : Z := if i <? 0 then i + n else i.

(** ** Python slices (CPython PySlice_Unpack / PySlice_AdjustIndices). *)
Record pyslice := mkSlice
  { sl_start : option Z; sl_stop : option Z; sl_step : option Z }.

Definition clip_index (n step i : Z) : Z :=
  let i := if i <? 0 then i + n else i in
  if i <? 0 then (if step <? 0 then -1 else 0)
  else if n <=? i then (if step <? 0 then n - 1 else n)
  else i.

(** (first, step, count) of the positions a slice picks from [n] items;
    [None] is the ValueError for a zero step. *)
Definition slice_indices (n : Z) (s : pyslice) : option (Z * Z * Z) :=
  let step := match sl_step s with Some k => k | None => 1 end in
  if step =? 0 then None
  else
    let start := match sl_start s with
                 | Some i => clip_index n step i
                 | None => if step <? 0 then n - 1 else 0
                 end in
    let stop := match sl_stop s with
                | Some i => clip_index n step i
                | None => if step <? 0 then -1 else n
                end in
    let count :=
      if step <? 0 then
        (if stop <? start then (start - stop - 1) / (- step) + 1 else 0)
      else
        (if start <? stop then (stop - start - 1) / step + 1 else 0) in
    Some (start, step, count).

(** The positions themselves. *)
Definition slice_positions (n : Z) (s : pyslice) : option (list Z) :=
  match slice_indices n s with
  | Some (start, step, count) => Some (map (fun k => start + k * step) (zrange count))
  | None => None
  end.

(** Things used as the index of a 1-D array. *)
Inductive indexer :=
  | IxSlice (s : pyslice)
  | IxInts (l : list Z)
  | IxBools (l : list bool).

(** Positions where a mask is true, counted from [k]. *)
Fixpoint true_positions (k : Z) (m : list bool) : list Z :=
  match m with
  | [] => []
  | true :: t => k :: true_positions (k + 1) t
  | false :: t => true_positions (k + 1) t
  end.

(** The positions of an [n]-element array an indexer picks; [None] = numpy
    IndexError / ValueError. *)
Definition indexer_positions (n : Z) (ix : indexer) : option (list Z) :=
  match ix with
  | IxSlice s => slice_positions n s
  | IxInts l =>
      if forallb (fun i => (- n <=? i) && (i <? n)) l
      then Some (map (wrap_index n) l) else None
  | IxBools m => if zlen m =? n then Some (true_positions 0 m) else None
  end.

(** numpy [a[ix]] for a 1-D array. *)
Definition np_index {A} (l : list A) (ix : indexer) : option (list A) :=
  match indexer_positions (zlen l) ix with
  | Some ps => gather l ps
  | None => None
  end.

(** ** Exact rounding of the rational p / q *)

(** Round half to even, as numpy's [rint]/[np.round]. *)
Definition round_half_even (p q : Z) : Z :=
  let p := if q <? 0 then - p else p in
  let q := Z.abs q in
  let f := p / q in
  let r := p mod q in
  if 2 * r <? q then f
  else if q <? 2 * r then f + 1
  else if Z.even f then f else f + 1.

Definition ceil_div (p q : Z) : Z := - ((- p) / q).
Definition floor_div (p q : Z) : Z := p / q.

Definition pow10_10 : Z := 10000000000.

(** [l] is strictly / weakly ordered; used by specifications. *)
Fixpoint ascending (l : list Z) : Prop :=
  match l with
  | [] => True
  | x :: t => match t with [] => True | y :: _ => x < y end /\ ascending t
  end.
Fixpoint descending (l : list Z) : Prop :=
  match l with
  | [] => True
  | x :: t => match t with [] => True | y :: _ => y < x end /\ descending t
  end.
