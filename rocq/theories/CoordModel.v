(** Model of dascore/core/coords.py: 1-D coordinates.

    Values are integers: this is exact for integer coordinates ([KInt]) and for
    datetime64[ns] / timedelta64[ns] coordinates ([KTime]).  Units, unit
    conversion, dtype strings, float coordinates and N-D coordinate arrays are
    not modelled here.  Quotients the code computes in float64 are exact
    rationals here. *)
From Verif Require Import Base.

(** dtype family of a coordinate. *)
Inductive kind := KInt | KTime.

(** coords.py 1142-1164: the fields of CoordRange (units/dtype dropped);
    [r_len] is [shape[0]]. *)
Record crange := mkRange
  { r_kind : kind; r_start : Z; r_stop : Z; r_step : Z; r_len : Z }.

(** coords.py 1025, 1142, 1420, 1552: the coordinate classes. A CoordPartial is
    reduced to its length: its optional start/stop/step are dropped. *)
Inductive coord :=
  | CRange (r : crange)
  | CMono (k : kind) (v : list Z)
  | CArr (k : kind) (v : list Z)
  | CPart (n : Z).

(** coords.py 1212-1215: [int(np.ceil(np.round((stop - start) / step, 1)))]. *)
Definition span_count (start stop step : Z) : Z :=
  ceil_div (round_half_even (10 * (stop - start)) step) 10.

(** coords.py 1166-1227, with start, stop and step all given (a shape given in
    addition is ignored by the code). [ZeroDivision] is the failing division by
    a zero step when start <> stop. *)
Definition mk_range (k : kind) (start stop step : Z) : result crange :=
  let stop' := if step =? 0 then stop
               else start + step * span_count start stop step in
  if start =? stop' then
    if Z.sgn step =? Z.sgn (stop' - start)
    then Ok (mkRange k start stop' step 1) else Err CoordError
  else if step =? 0 then Err ZeroDivision
  else
    let len := round_half_even (stop' - start) step in
    if Z.sgn step =? Z.sgn (stop' - start)
    then Ok (mkRange k start stop' step len) else Err CoordError.

(** coords.py 1181-1210: filling in one missing value from the length. For
    [KTime] [(stop - start) / length] is numpy's truncating timedelta division;
    for [KInt] only the exactly divisible case is modelled (otherwise the code
    produces a float step). *)
Definition mk_range_opt (k : kind) (start stop step len : option Z) : result crange :=
  match start, stop, step, len with
  | Some a, Some b, Some s, _ => mk_range k a b s
  | None, Some b, Some s, Some n => mk_range k (b - s * n) b s
  | Some a, None, Some s, Some n => mk_range k a (a + s * n) s
  | Some a, Some b, None, Some n =>
      if n =? 0 then Err ZeroDivision
      else match k with
           | KTime => mk_range k a b (Z.quot (b - a) n)
           | KInt => if (b - a) mod n =? 0 then mk_range k a b ((b - a) / n)
                     else Err Unmodelled
           end
  | _, _, _, _ => Err CoordError
  end.

(** numpy [arange] over integers. *)
Definition np_arange (start stop step : Z) : list Z :=
  map (fun i => start + i * step) (zrange (ceil_div (stop - start) step)).

(** numpy [linspace] cast to an integer dtype (num > 1). *)
Definition np_linspace (a b num : Z) : list Z :=
  map (fun i => a + (i * (b - a)) / (num - 1)) (zrange num).

(** coords.py 1357-1374: CoordRange.values. *)
Definition r_values (r : crange) : list Z :=
  if r_len r =? 1 then [r_start r]
  else
    let out := match r_kind r with
               | KTime => np_arange (r_start r) (r_stop r) (r_step r)
               | KInt => np_linspace (r_start r) (r_stop r - r_step r) (r_len r)
               end in
    firstn (Z.to_nat (r_len r)) out.

(** coords.py 1376-1384. *)
Definition r_min (r : crange) : Z := Z.min (r_start r) (r_stop r - r_step r).
Definition r_max (r : crange) : Z := Z.max (r_stop r - r_step r) (r_start r).

(** coords.py 1406-1417. *)
Definition r_sorted (r : crange) : bool := 0 <=? r_step r.
Definition r_reverse_sorted (r : crange) : bool := r_step r <? 0.

(** coords.py 1617-1628: _step_meets_requirement for an operator [op]; the
    boolean argument says whether [op] is [gt]. *)
Fixpoint some_step (op : Z -> Z -> bool) (v : list Z) : bool :=
  match v with
  | x :: ((y :: _) as t) => op y x || some_step op t
  | _ => false
  end.
Definition step_meets (is_gt : bool) (v : list Z) : bool :=
  some_step (if is_gt then Z.gtb else Z.ltb) v
  || ((zlen v =? 1) && is_gt).

(** BaseCoord/CoordRange/CoordMonotonicArray [.sorted], [.reverse_sorted],
    [.evenly_sampled] (coords.py 535-549, 1406-1417, 1630-1640). *)
Definition c_sorted (c : coord) : bool :=
  match c with
  | CRange r => r_sorted r
  | CMono _ v => step_meets true v
  | _ => false
  end.
Definition c_reverse_sorted (c : coord) : bool :=
  match c with
  | CRange r => r_reverse_sorted r
  | CMono _ v => step_meets false v
  | _ => false
  end.
Definition c_evenly (c : coord) : bool :=
  match c with CRange _ => true | _ => false end.

(** [.values]: a partial coordinate holds nulls (coords.py 1079-1083). *)
Definition c_values (c : coord) : list (option Z) :=
  match c with
  | CRange r => map Some (r_values r)
  | CMono _ v | CArr _ v => map Some v
  | CPart n => repeat None (Z.to_nat n)
  end.

(** [len(coord)] (shape[0]). *)
Definition c_len (c : coord) : Z :=
  match c with
  | CRange r => r_len r
  | CMono _ v | CArr _ v => zlen v
  | CPart n => n
  end.

(** [np.nanmin] / [np.nanmax] of integer values (coords.py 1542-1549); [None]
    for the ValueError on an empty array. *)
Definition list_min (v : list Z) : option Z :=
  match v with [] => None | x :: t => Some (fold_left Z.min t x) end.
Definition list_max (v : list Z) : option Z :=
  match v with [] => None | x :: t => Some (fold_left Z.max t x) end.
Definition c_min (c : coord) : option Z :=
  match c with
  | CRange r => Some (r_min r)
  | CMono _ v | CArr _ v => list_min v
  | CPart _ => None
  end.
Definition c_max (c : coord) : option Z :=
  match c with
  | CRange r => Some (r_max r)
  | CMono _ v | CArr _ v => list_max v
  | CPart _ => None
  end.

(** ** get_coord(data=...) *)

(** [data[1:] - data[:-1]]. *)
Fixpoint diffs (v : list Z) : list Z :=
  match v with
  | x :: ((y :: _) as t) => (y - x) :: diffs t
  | _ => []
  end.

Fixpoint insert (x : Z) (l : list Z) : list Z :=
  match l with
  | [] => [x]
  | y :: t => if x <=? y then x :: l else y :: insert x t
  end.
(** [np.sort]. *)
Definition np_sort (l : list Z) : list Z := fold_right insert [] l.

(** Drop repeats from a sorted list. *)
Fixpoint dedup (l : list Z) : list Z :=
  match l with
  | x :: ((y :: _) as t) => if x =? y then dedup t else x :: dedup t
  | _ => l
  end.
(** [np.unique]. *)
Definition np_unique (l : list Z) : list Z := dedup (np_sort l).

(** Twice [np.median] of a sorted non-empty list (exact). *)
Definition twice_median (l : list Z) : Z :=
  let n := length l in
  if Nat.even n
  then nth (n / 2 - 1) l 0 + nth (n / 2) l 0
  else 2 * nth (n / 2) l 0.

(** utils/misc.py 322-334: [np.allclose(diffs, median, rtol=0.001)] with numpy's
    default [atol=1e-8], multiplied out: |d - m| <= 1e-8 + |m|/1000. The
    argument is sorted because it comes from [np.unique]. *)
Definition close_to_median (l : list Z) : bool :=
  match l with
  | [] => false
  | _ =>
      let m2 := twice_median l in
      forallb (fun d => 100000000 * Z.abs (2 * d - m2)
                        <=? 2 + 100000 * Z.abs m2) l
  end.

(** coords.py 1756-1763: the monotonicity test. [np.all] of nothing is true. *)
Definition is_monotonic (v : list Z) : bool :=
  forallb (fun d => d <? 0) (diffs v) || forallb (fun d => 0 <? d) (diffs v).

(** coords.py 1387-1405 needs [update] (808-821), which drops fields that are
    [all_close] to the present value (misc.py 128-145): [np.isclose] with
    rtol=1e-5, atol=1e-8 for integers, equality for times (isclose raises
    TypeError on them). [isclose new old]: |new - old| <= 1e-8 + 1e-5*|old|. *)
Definition all_close (k : kind) (a b : Z) : bool :=
  match k with
  | KInt => 100000000 * Z.abs (a - b) <=? 1 + 1000 * Z.abs b
  | KTime => a =? b
  end.

(** coords.py 657-668 with start/stop/step given by keyword: [new] goes through
    [get_coord] with the old shape, which falls back to a partial coordinate of
    the old length when the range is invalid (coords.py 1779-1786). *)
Definition r_new (r : crange) (start stop step : Z) : coord :=
  match mk_range (r_kind r) start stop step with
  | Ok r' => CRange r'
  | Err _ => CPart (r_len r)
  end.

(** coords.py 1386-1405. *)
Definition change_length (r : crange) (n : Z) : result coord :=
  if n <? 0 then Err ParameterError
  else if r_len r =? n then Ok (CRange r)
  else if n =? 0 then Ok (CPart 0)
  else
    let stop := r_stop r + r_step r * (n - r_len r) in
    let out := if all_close (r_kind r) stop (r_stop r) then CRange r
               else r_new r (r_start r) stop (r_step r) in
    if c_len out =? n then Ok out else Err AssertionError.

(** coords.py 1643-1834 with [data] an integer/time array and no step, start or
    stop. *)
Definition get_coord_data (k : kind) (v : list Z) : result coord :=
  match v with
  | [] => Ok (CPart 0)
  | [_] => Ok (CMono k v)
  | x0 :: _ =>
      let ds := diffs v in
      let u := np_unique ds in
      if is_monotonic v then
        if (zlen u =? 1) || close_to_median u then
          let step := nth (length ds / 2) (np_sort ds) 0 in
          let last := x0 + (zlen v - 1) * step in
          do r <- mk_range k x0 (last + step) step;
          change_length r (zlen v)
        else Ok (CMono k v)
      else Ok (CArr k v)
  end.

(** coords.py 1818-1823: a length-one array with an explicit step. *)
Definition get_coord_one (k : kind) (x step : Z) : result coord :=
  do r <- mk_range k x (x + step) step; Ok (CRange r).

(** coords.py 749-766: an empty coordinate. *)
Definition c_empty : coord := CPart 0.

(** ** Indexing *)

(** Integers of a concrete coordinate; [None] for partial ones. *)
Definition c_ints (c : coord) : list Z :=
  match c with
  | CRange r => r_values r
  | CMono _ v | CArr _ v => v
  | CPart _ => []
  end.

Definition c_kind (c : coord) : kind :=
  match c with CRange r => r_kind r | CMono k _ | CArr k _ => k | CPart _ => KInt end.

(** coords.py 1229-1249 (CoordRange), 1536-1540 (arrays keep their class),
    1043-1047 (partial keeps only the resulting length); integer items are
    [c_item] below. *)
Definition c_getitem (c : coord) (ix : indexer) : result coord :=
  match c with
  | CRange r =>
      match ix with
      | IxSlice s =>
          match slice_indices (r_len r) s with
          | None => Err ValueError
          | Some (i0, st, cnt) =>
              if 0 <? cnt then
                let new_step := r_step r * st in
                let new_start := r_start r + i0 * r_step r in
                let new_stop := new_start + new_step * cnt in
                Ok (r_new r new_start new_stop new_step)
              else
                match np_index (r_values r) ix with
                | Some v => get_coord_data (r_kind r) v
                | None => Err IndexError
                end
          end
      | _ =>
          match np_index (r_values r) ix with
          | Some v => get_coord_data (r_kind r) v
          | None => Err IndexError
          end
      end
  | CMono k v =>
      match np_index v ix with Some w => Ok (CMono k w) | None => Err IndexError end
  | CArr k v =>
      match np_index v ix with Some w => Ok (CArr k w) | None => Err IndexError end
  | CPart n =>
      match indexer_positions n ix with
      | Some ps => Ok (CPart (zlen ps)) | None => Err IndexError end
  end.

(** coords.py 1230-1233: integer item of a range. Negative items wrap as in
    numpy. *)
Definition r_item (r : crange) (i : Z) : result Z :=
  if r_len r <=? i then Err IndexError
  else match znth (r_values r) (wrap_index (zlen (r_values r)) i) with
       | Some x => Ok x | None => Err IndexError end.

(** ** Range select *)

(** coords.py 740-747. *)
Definition relative_value (c : coord) (x : Z) : result Z :=
  if 0 <=? x
  then match c_min c with Some m => Ok (m + x) | None => Err ValueError end
  else match c_max c with Some m => Ok (m + x) | None => Err ValueError end.

(** coords.py 675-701, for a value already in the coordinate's unit/dtype;
    [None] covers None, NaN and Ellipsis. *)
Definition compat_value (c : coord) (relative : bool) (x : option Z) : result (option Z) :=
  match x with
  | None => Ok None
  | Some v => if relative then do w <- relative_value c v; Ok (Some w)
              else Ok (Some v)
  end.

(** coords.py 716-738. *)
Definition slice_tuple (c : coord) (relative : bool) (lo hi : option Z)
  : result (option Z * option Z) :=
  do p1 <- compat_value c relative lo;
  do p2 <- compat_value c relative hi;
  match p1, p2 with
  | Some a, Some b => if b <? a then Ok (Some b, Some a) else Ok (Some a, Some b)
  | _, _ => Ok (p1, p2)
  end.

(** coords.py 703-714, on the (start, stop) of a slice. *)
Definition slice_degenerate (n : Z) (start stop : option Z) : bool :=
  let between := match start, stop with
                 | Some a, Some b => a =? b
                 | _, _ => false end in
  let bad_start := match start with
                   | Some a => (a <? 0) || (n <=? a) | None => false end in
  let bad_stop := match stop with Some b => b <=? 0 | None => false end in
  between || bad_start || bad_stop.

(** coords.py 1309-1325, the integer index before the range test:
    [ceil|floor(round((value - start)/step, 10))]. *)
Definition r_raw_index (r : crange) (v : Z) (forward : bool) : Z :=
  let t := round_half_even (pow10_10 * (v - r_start r)) (r_step r) in
  if forward then ceil_div t pow10_10 else floor_div t pow10_10.

(** coords.py 1309-1325 for a scalar. *)
Definition r_get_index (r : crange) (v : option Z) (forward : bool) : option Z :=
  match v with
  | None => None
  | Some v =>
      let out := r_raw_index r v forward in
      let lt_forward := (out <? 0) && forward in
      let gt_back := (r_len r <=? out) && negb forward in
      if lt_forward || gt_back then None else Some out
  end.

Definition simple_slice (start stop : option Z) : indexer :=
  IxSlice (mkSlice start stop None).

(** coords.py 1267-1292 (the value-range branch). *)
Definition r_select (r : crange) (relative : bool) (lo hi : option Z)
  : result (coord * indexer) :=
  do args <- slice_tuple (CRange r) relative lo hi;
  let i1 := r_get_index r (fst args) (r_sorted r) in
  let i2 := r_get_index r (snd args) (r_reverse_sorted r) in
  let start := if r_reverse_sorted r then i2 else i1 in
  let stop := if r_reverse_sorted r then i1 else i2 in
  let start := match start with Some a => if a =? 0 then None else Some a | None => None end in
  let stop1 := match stop with Some b => Some (b + 1) | None => None end in
  if slice_degenerate (r_len r) start stop1
  then Ok (c_empty, simple_slice (Some 0) (Some 0))
  else
    do new_start <- match start with Some a => r_item r a | None => Ok (r_start r) end;
    do new_end <- match stop with
                  | Some b => do x <- r_item r b; Ok (x + r_step r)
                  | None => Ok (r_stop r) end;
    Ok (r_new r new_start new_end (r_step r), simple_slice start stop1).

(** numpy [searchsorted] for one key: binary search. [lt a key] decides whether
    to go right. [fuel] bounds the iterations; the array length suffices. *)
Fixpoint bsearch (fuel : nat) (v : list Z) (go_right : Z -> bool) (lo hi : Z) : Z :=
  match fuel with
  | O => lo
  | S fuel' =>
      if lo <? hi then
        let mid := lo + (hi - lo) / 2 in
        match znth v mid with
        | Some x => if go_right x then bsearch fuel' v go_right (mid + 1) hi
                    else bsearch fuel' v go_right lo mid
        | None => lo
        end
      else lo
  end.
Definition searchsorted (left : bool) (v : list Z) (key : Z) : Z :=
  bsearch (length v) v (fun x => if left then x <? key else x <=? key) 0 (zlen v).

(** [values.take(i, mode="clip")]. *)
Definition take_clip (v : list Z) (i : Z) : option Z :=
  znth v (Z.max 0 (Z.min i (zlen v - 1))).

(** coords.py 1586-1615 for a scalar value. The code negates via [to_float] for
    descending coordinates; here the negation is exact. *)
Definition m_index (v : list Z) (value : Z) (forward : bool) : Z :=
  let rev := step_meets false v in
  let vals := if rev then map Z.opp v else v in
  let key := if rev then - value else value in
  let right := searchsorted false vals key in
  let left := searchsorted true vals key in
  let left_ok := (left <? zlen v) && (0 <? left) in
  let eq := left_ok && match take_clip vals left with
                       | Some x => x =? key | None => false end in
  let out := if forward then right else left in
  if negb rev && eq then left else out.
Definition m_get_index (v : list Z) (value : option Z) (forward : bool) : option Z :=
  match value with None => None | Some x => Some (m_index v x forward) end.

(** coords.py 1559-1584 (the value-range branch). *)
Definition m_select (k : kind) (v : list Z) (relative : bool) (lo hi : option Z)
  : result (coord * indexer) :=
  do args <- slice_tuple (CMono k v) relative lo hi;
  let rev := step_meets false v in
  let v1 := if rev then snd args else fst args in
  let v2 := if rev then fst args else snd args in
  let new_start := match m_get_index v v1 false with
                   | Some s => if 0 <? s then Some s else None
                   | None => None end in
  let new_stop := match m_get_index v v2 true with
                  | Some s => if s <? zlen v then Some s else None
                  | None => None end in
  let new_stop := match new_stop with
                  | Some s =>
                      match znth v s, v2 with
                      | Some x, Some y => if x =? y then Some (s + 1) else Some s
                      | _, _ => Some s
                      end
                  | None => None end in
  let out := simple_slice new_start new_stop in
  if slice_degenerate (zlen v) new_start new_stop
  then Ok (c_empty, simple_slice (Some 0) (Some 0))
  else match np_index v out with
       | Some w => do c <- get_coord_data k w; Ok (c, out)
       | None => Err IndexError
       end.

Definition in_range (lo hi : option Z) (x : Z) : bool :=
  match lo with Some a => a <=? x | None => true end
  && match hi with Some b => x <=? b | None => true end.

(** coords.py 1447-1473 (the value-range branch, 1-D). *)
Definition a_select (k : kind) (v : list Z) (relative : bool) (lo hi : option Z)
  : result (coord * indexer) :=
  do args <- slice_tuple (CArr k v) relative lo hi;
  let mask := map (fun x =>
      match fst args with Some a => a <=? x | None => true end
      && match snd args with Some b => x <=? b | None => true end) v in
  if negb (existsb (fun b => b) mask) then Ok (c_empty, IxBools mask)
  else if forallb (fun b => b) mask
  then Ok (CArr k v, simple_slice None None)
  else
    let ix := IxInts (true_positions 0 mask) in
    match np_index v ix with
    | Some w => do c <- get_coord_data k w; Ok (c, ix)
    | None => Err IndexError
    end.

(** coords.py 1093-1113 (the value-range branch): a partial coordinate only
    accepts an unbounded range. *)
Definition p_select (n : Z) (lo hi : option Z) : result (coord * indexer) :=
  match lo, hi with
  | None, None => Ok (CPart n, simple_slice None None)
  | _, _ => Err CoordError
  end.

(** [coord.select((lo, hi), relative=...)]. *)
Definition c_select (c : coord) (relative : bool) (lo hi : option Z)
  : result (coord * indexer) :=
  match c with
  | CRange r => r_select r relative lo hi
  | CMono k v => m_select k v relative lo hi
  | CArr k v => a_select k v relative lo hi
  | CPart n => p_select n lo hi
  end.

(** ** Sample select *)

(** Arguments of [select(..., samples=True)] that are not arrays. *)
Inductive samples_arg :=
  | SaInt (i : Z)                          (* a single int *)
  | SaAll                                  (* None or ... *)
  | SaPair (a b : option Z)                (* a tuple, None/... as None *)
  | SaSlice (s : pyslice).                 (* a slice object *)

(** utils/misc.py 669-686. *)
Definition to_slice (a : samples_arg) : pyslice :=
  match a with
  | SaSlice s => s
  | SaInt i => if i =? -1 then mkSlice (Some (-1)) None None
               else mkSlice (Some i) (Some (i + 1)) None
  | SaAll => mkSlice None None None
  | SaPair x y => mkSlice x y None
  end.

(** coords.py 378-383. *)
Definition select_samples (c : coord) (a : samples_arg) : result (coord * indexer) :=
  let s := IxSlice (to_slice a) in
  do c' <- c_getitem c s; Ok (c', s).

(** ** Array select *)

Definition memZ (x : Z) (l : list Z) : bool := existsb (Z.eqb x) l.

(** coords.py 349-354 with a concrete coordinate, 675-701 for [relative]. *)
Definition select_values (c : coord) (arr : list Z) : result (coord * indexer) :=
  let ix := IxBools (map (fun x => memZ x arr) (c_ints c)) in
  do c' <- c_getitem c ix; Ok (c', ix).

(** coords.py 356-367. *)
Definition select_sample_array (c : coord) (arr : list Z) : result (coord * indexer) :=
  let ix := IxBools (map (fun i => memZ i arr) (zrange (c_len c))) in
  do c' <- c_getitem c ix; Ok (c', ix).

(** coords.py 373-374. *)
Definition select_bools (c : coord) (m : list bool) : result (coord * indexer) :=
  do c' <- c_getitem c (IxBools m); Ok (c', IxBools m).

(** ** Order *)

(** coords.py 301-312. *)
Definition value_index (v : list Z) (find : list Z) : list Z :=
  let l := map (searchsorted true v) find in
  let r := map (searchsorted false v) find in
  if forallb (fun p => snd p =? fst p + 1) (combine l r) then l
  else concat (map (fun p => map (fun i => fst p + i) (zrange (snd p - fst p)))
                   (combine l r)).

(** coords.py 314-335. [argsort] stands for [np.argsort], whose treatment of
    ties is unspecified; theorems quantify over it. Descending coordinates are
    negated exactly (the code goes through float64). *)
Definition order_index (argsort : list Z -> list Z) (c : coord) (arr : list Z)
  : option (list Z) :=
  let v := c_ints c in
  let find := filter (fun x => memZ x v) arr in
  if c_sorted c then Some (value_index v find)
  else if c_reverse_sorted c
  then Some (value_index (map Z.opp v) (map Z.opp find))
  else
    let a := argsort v in
    match gather v a with
    | Some sv => gather a (value_index sv find)
    | None => None
    end.

(** utils/misc.py 713-728. *)
Definition maybe_slice (l : list Z) (data_len : Z) : indexer :=
  match l with
  | [] | [_] => IxInts l
  | x :: _ =>
      let y := last l 0 in
      if y - x =? zlen l - 1 then
        if forallb (fun d => 0 <? d) (diffs l) then
          if zlen l =? data_len then simple_slice None None
          else simple_slice (Some x) (Some (y + 1))
        else IxInts l
      else IxInts l
  end.

(** coords.py 394-417, values. *)
Definition order_values (argsort : list Z -> list Z) (c : coord) (arr : list Z)
  : result (coord * indexer) :=
  match c with
  | CPart _ => Err CoordError                       (* coords.py 1085-1091 *)
  | _ =>
      match order_index argsort c arr with
      | None => Err IndexError
      | Some inds =>
          do c' <- c_getitem c (IxInts inds);
          Ok (c', maybe_slice inds (c_len c))
      end
  end.

(** coords.py 337-347 and 394-417, samples. *)
Definition order_samples (c : coord) (arr : list Z) : result (coord * indexer) :=
  let inds := filter (fun i => Z.abs i <? c_len c) arr in
  do c' <- c_getitem c (IxInts inds);
  Ok (c', maybe_slice inds (c_len c)).

(** ** Sort *)

(** coords.py 1294-1307. *)
Definition r_sort (r : crange) (reverse : bool) : coord * indexer :=
  if (negb reverse && r_sorted r) || (reverse && r_reverse_sorted r)
  then (CRange r, simple_slice None None)
  else
    let new_step := - r_step r in
    let (a, b) := if reverse then (r_max r, r_min r + new_step)
                  else (r_min r, r_max r + new_step) in
    (r_new r a b new_step, IxSlice (mkSlice None None (Some (-1)))).

(** coords.py 1475-1481; 1068-1070 for partial coordinates. *)
Definition c_sort (argsort : list Z -> list Z) (c : coord) (reverse : bool)
  : result (coord * indexer) :=
  match c with
  | CRange r => Ok (r_sort r reverse)
  | CPart n => Ok (CPart n, simple_slice None None)
  | CMono k v | CArr k v =>
      let a := if reverse then rev (argsort v) else argsort v in
      match gather v a with
      | Some w => do c' <- get_coord_data k w; Ok (c', IxInts a)
      | None => Err IndexError
      end
  end.

(** ** Limits *)

(** coords.py 1483-1516 for time coordinates (integer arrays get a float step
    and are not modelled). The length-one step is one second. *)
Definition snap (k : kind) (mono : bool) (v : list Z) : result coord :=
  match k with
  | KInt => Err Unmodelled
  | KTime =>
      match list_min v, list_max v with
      | Some mn, Some mx =>
          let n := zlen v in
          do step <-
            (if n =? 1 then Ok 1000000000
             else let s := round_half_even (mx - mn) (n - 1) in
                  if 0 <? s then Ok s else Err AssertionError);
          let rev := mono && step_meets false v in
          let step' := if rev then - step else step in
          let start := if rev then mx else mn in
          let stop := (if rev then mn else mx) + step' in
          do r <- mk_range KTime start stop step';
          change_length r n
      | _, _ => Err ValueError
      end
  end.

(** coords.py 1327-1355. Dividing an integer span by the length gives a float
    step unless it divides exactly; only that case is modelled for [KInt]. *)
Definition r_update_limits (r : crange) (mn mx step : option Z) : result coord :=
  match mn, mx, step with
  | Some _, Some _, Some _ => Err ValueError
  | Some a, Some b, None =>
      match r_kind r with
      | KTime => do r' <- mk_range KTime a b (Z.quot (b - a) (r_len r)); Ok (CRange r')
      | KInt => if (b - a) mod (r_len r) =? 0
                then do r' <- mk_range KInt a b ((b - a) / r_len r); Ok (CRange r')
                else Err Unmodelled
      end
  | _, _, _ =>
      do c1 <- match step with
               | None => Ok (CRange r)
               | Some s => Ok (r_new r (r_start r) (r_start r + s * r_len r) s)
               end;
      do c2 <- match mn, c1 with
               | None, _ => Ok c1
               | Some m, CRange o =>
                   Ok (r_new o m (r_stop o + (m - r_start o)) (r_step o))
               | Some _, _ => Err Unmodelled
               end;
      match mx, c2 with
      | None, _ => Ok c2
      | Some m, CRange o =>
          let translation := (m + r_step o) - r_stop o in
          Ok (r_new o (r_start r + translation) (m + r_step o) (r_step o))
      | Some _, _ => Err Unmodelled
      end
  end.

(** coords.py 1518-1534. *)
Definition a_update_limits (k : kind) (mono : bool) (v : list Z)
  (mn mx step : option Z) : result coord :=
  let same := if mono then CMono k v else CArr k v in
  match mn, mx, step with
  | None, None, None => Ok same
  | None, None, Some s =>
      if 0 <? zlen v then
        do c <- snap k mono v;
        match c with
        | CRange r => r_update_limits r None None (Some s)
        | _ => Err Unmodelled
        end
      else Ok same
  | Some m, None, None =>
      match list_min v with
      | Some x => get_coord_data k (map (fun y => y + (m - x)) v)
      | None => Err ValueError
      end
  | None, Some m, None =>
      match list_max v with
      | Some x => get_coord_data k (map (fun y => y + (m - x)) v)
      | None => Err ValueError
      end
  | _, _, _ => Err ValueError
  end.

(** ** Alignment *)

(** [np.intersect1d]: sorted distinct common values. *)
Definition intersect1d (a b : list Z) : list Z :=
  filter (fun x => memZ x b) (np_unique a).

(** The [self == other] shortcut of coords.py 446 is models.py 68-85: fields are
    compared with [!=], array fields with [all_close] (misc.py 128-145), and the
    two array classes have the same fields. *)
Definition kind_eqb (a b : kind) : bool :=
  match a, b with KInt, KInt | KTime, KTime => true | _, _ => false end.
Fixpoint zlist_eqb (a b : list Z) : bool :=
  match a, b with
  | [], [] => true
  | x :: a, y :: b => (x =? y) && zlist_eqb a b
  | _, _ => false
  end.
Fixpoint all_pairs_close (k : kind) (a b : list Z) : bool :=
  match a, b with
  | [], [] => true
  | x :: s, y :: t => all_close k x y && all_pairs_close k s t
  | _, _ => false
  end.
Definition c_eqb (a b : coord) : bool :=
  match a, b with
  | CRange r, CRange s =>
      kind_eqb (r_kind r) (r_kind s) && (r_start r =? r_start s)
      && (r_stop r =? r_stop s) && (r_step r =? r_step s) && (r_len r =? r_len s)
  | (CMono k v | CArr k v), (CMono l w | CArr l w) => kind_eqb k l && all_pairs_close k v w
  | CPart n, CPart m => n =? m
  | _, _ => false
  end.

(** coords.py 419-457. *)
Definition align_to (argsort : list Z -> list Z) (a b : coord)
  : result (coord * coord * indexer * indexer) :=
  let full := simple_slice None None in
  if c_eqb a b then Ok (a, b, full, full)
  else match a, b with
       | CPart _, _ | _, CPart _ =>
           if (c_len a =? 1) || (c_len b =? 1) || (c_len a =? c_len b)
           then Ok (a, b, full, full) else Err CoordError
       | _, _ =>
           let common := intersect1d (c_ints a) (c_ints b) in
           do x <- order_values argsort a common;
           do y <- order_values argsort b common;
           Ok (fst x, fst y, snd x, snd y)
       end.

(** ** Sample counts and next index *)

(** coords.py 823-870 for a non-sample value of an evenly sampled coordinate. *)
Definition sample_count (r : crange) (value : Z) (enforce : bool) : result Z :=
  if r_step r =? 0 then Err ZeroDivision
  else
    do v <- relative_value (CRange r) value;
    let duration := v - r_min r in
    let n := if r_step r <? 0 then ceil_div (- duration) (- r_step r)
             else ceil_div duration (r_step r) in
    if enforce && (r_len r <? n) then Err ParameterError else Ok n.
(** coords.py 840-847 and 857-862: the [samples=True] variant. *)
Definition sample_count_samples (r : crange) (value : Z) (enforce : bool) : result Z :=
  if enforce && (r_len r <? value) then Err ParameterError else Ok value.

(** coords.py 872-950, [samples=True], array argument. *)
Definition next_index_samples (c : coord) (arr : list Z) (allow_oob : bool)
  : result (list Z) :=
  if negb (c_sorted c) then Err CoordError
  else
    let mx := c_len c - 1 in
    let arr := if allow_oob then arr
               else map (fun i => if i <? 0 then i + mx + 1 else i) arr in
    let oob := existsb (fun i => (mx <? i) || (i <? 0)) arr in
    if negb allow_oob && oob then Err ValueError else Ok arr.

(** coords.py 872-950, values, array argument (relative=False). The test for
    -9999 at 947-949 never fires on in-range values. *)
Definition next_index (c : coord) (arr : list Z) (allow_oob : bool)
  : result (list Z) :=
  if negb (c_sorted c) then Err CoordError
  else match c_min c, c_max c with
  | Some mn, Some mx =>
      let oob := existsb (fun x => (mx <? x) || (x <? mn)) arr in
      if negb allow_oob && oob then Err ValueError
      else
        let clamp x := if mx <? x then mx else if x <? mn then mn else x in
        match c with
        | CRange r =>
            if r_step r =? 0 then Err ZeroDivision
            else if allow_oob && oob
            then Ok (map (fun x => Z.quot (x - mn) (r_step r)) arr)
            else Ok (map (fun x => r_raw_index r (clamp x) true) arr)
        | CMono _ v => Ok (map (fun x => m_index v (clamp x) true) arr)
        | _ => Err CoordError
        end
  | _, _ => Err ValueError
  end.

(** ** Summary *)

(** coords.py 796-806: CoordSummary (min, max, step) of a range. *)
Definition to_summary (r : crange) : Z * Z * Z := (r_min r, r_max r, r_step r).
(** coords.py 184-200. *)
Definition summary_to_coord (k : kind) (s : Z * Z * Z) : result crange :=
  let '(mn, mx, step) := s in
  if Z.sgn step =? -1 then mk_range k mx (mn + step) step
  else mk_range k mn (mx + step) step.

(** coords.py 574-594. *)
Definition coord_range (c : coord) (extend : bool) : result Z :=
  if negb (c_evenly c) && extend then Err CoordError
  else match c_min c, c_max c with
       | Some a, Some b =>
           match c with
           | CRange r => Ok (if extend then b - a + Z.abs (r_step r) else b - a)
           | _ => Ok (b - a)
           end
       | _, _ => Err ValueError
       end.

(** ** Histories of operations *)

(** The public operations a user can chain on a coordinate. *)
Inductive coord_op :=
  | OpSelect (relative : bool) (lo hi : option Z)
  | OpSamples (a : samples_arg)
  | OpSelectValues (arr : list Z)
  | OpSelectSampleArray (arr : list Z)
  | OpSelectBools (m : list bool)
  | OpSlice (s : pyslice)
  | OpSort (reverse : bool)
  | OpOrderValues (arr : list Z)
  | OpOrderSamples (arr : list Z).

Definition fst_result {A B} (x : result (A * B)) : result A := do p <- x; Ok (fst p).

(** One operation, keeping the coordinate and dropping the indexer. *)
Definition apply_op (argsort : list Z -> list Z) (c : coord) (o : coord_op) : result coord :=
  match o with
  | OpSelect rel lo hi => fst_result (c_select c rel lo hi)
  | OpSamples a => fst_result (select_samples c a)
  | OpSelectValues arr => fst_result (select_values c arr)
  | OpSelectSampleArray arr => fst_result (select_sample_array c arr)
  | OpSelectBools m => fst_result (select_bools c m)
  | OpSlice s => c_getitem c (IxSlice s)
  | OpSort reverse => fst_result (c_sort argsort c reverse)
  | OpOrderValues arr => fst_result (order_values argsort c arr)
  | OpOrderSamples arr => fst_result (order_samples c arr)
  end.

Fixpoint run_ops (argsort : list Z -> list Z) (c : coord) (ops : list coord_op) : result coord :=
  match ops with
  | [] => Ok c
  | o :: t => do c' <- apply_op argsort c o; run_ops argsort c' t
  end.
