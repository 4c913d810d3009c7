(** Model of dascore/utils/time.py: conversions between numbers, numpy's
    datetime64 / timedelta64 and strings.

    Floats are IEEE 754 binary64 numbers with round to nearest, ties to even, as
    formalised by Flocq (one NaN). Integers held in arrays are int64 and wrap.
    Not modelled: calendar units (month, year), python's datetime and timedelta
    classes, pandas' Series / Timestamp / StringArray, zero-dimensional arrays,
    unsigned and arbitrary precision integers, and numpy's parser of ISO 8601
    strings, which is a parameter. *)
From Coq Require Import ZArith List Bool Strings.String Strings.Ascii.
From Coq Require Import Numbers.DecimalString Numbers.DecimalZ.
From Flocq Require Import Core.FLX IEEE754.BinarySingleNaN.
From Verif Require Import Base.
Local Open Scope Z_scope.

(** ** numpy primitives *)
Notation b64 := (binary_float 53 1024).
Definition b64_prec : FLX.Prec_gt_0 53 := eq_refl.
Definition b64_emax : Prec_lt_emax 53 1024 := eq_refl.
#[global] Existing Instance b64_prec.
#[global] Existing Instance b64_emax.

(** C conversion of an int64 to double. *)
Definition float_of (n : Z) : b64 := binary_normalize 53 1024 b64_prec b64_emax mode_NE n 0 false.
Definition fmul (x y : b64) : b64 := Bmult mode_NE x y.
Definition fdiv (x y : b64) : b64 := Bdiv mode_NE x y.
(** np.rint *)
Definition frint (x : b64) : b64 := Bnearbyint mode_NE x.
Definition fnan : b64 := B754_nan.

Definition int64_min : Z := - 2 ^ 63.
Definition in_int64 (n : Z) : bool := (- 2 ^ 63 <=? n) && (n <? 2 ^ 63).
(** int64 arithmetic wraps. *)
Definition wrap64 (n : Z) : Z := (n + 2 ^ 63) mod 2 ^ 64 - 2 ^ 63.
(** float array [.astype(np.int64)]: truncates; out of range, and for NaN and the
    infinities, C leaves the answer open and x86-64 answers the smallest int64. *)
Definition int_of (x : b64) : Z :=
  if is_finite x && in_int64 (Btrunc x) then Btrunc x else int64_min.

(** Units of datetime64 / timedelta64 (month and year are not modelled). *)
Inductive tunit := Wk | Dy | Hr | Mn | Sc | Ms | Us | Ns | Ps | Fs | As.
(** Attoseconds in one unit. *)
Definition attos (u : tunit) : Z :=
  match u with
  | Wk => 604800 * 10 ^ 18 | Dy => 86400 * 10 ^ 18 | Hr => 3600 * 10 ^ 18 | Mn => 60 * 10 ^ 18
  | Sc => 10 ^ 18 | Ms => 10 ^ 15 | Us => 10 ^ 12 | Ns => 10 ^ 9 | Ps => 10 ^ 6 | Fs => 10 ^ 3 | As => 1
  end.
(** An int64 behind a time; the smallest one is NaT ([None]). *)
Definition time_of (n : Z) : option Z := if n =? int64_min then None else Some n.
Definition int_behind (t : option Z) : Z := match t with Some n => n | None => int64_min end.
(** [.astype("datetime64[v]")] of a time in unit u: multiplies (and wraps) or
    divides rounding down; NaT stays. *)
Definition in_unit (u v : tunit) (t : option Z) : option Z :=
  match t with
  | None => None
  | Some n => time_of (if attos v <=? attos u then wrap64 (n * (attos u / attos v)) else n / (attos v / attos u))
  end.
Definition finer (u v : tunit) : tunit := if attos u <=? attos v then u else v.

(** constants.py 49-58: ONE_SECOND, ONE_BILLION. *)
Definition billion : Z := 1000000000.

(** timedelta64 / ONE_SECOND: both in the finer unit, divided as doubles; NaT gives NaN. *)
Definition td_seconds (u : tunit) (t : option Z) : b64 :=
  let v := finer u Sc in
  match in_unit u v t with
  | None => fnan
  | Some n => fdiv (float_of n) (float_of (attos Sc / attos v))
  end.

(** ** Python objects *)
Inductive scalar :=
  | SNull                              (* None, pd.NaT, pd.NA *)
  | SInt (n : Z)
  | SFloat (x : b64)
  | SDt (u : tunit) (t : option Z)     (* np.datetime64 *)
  | STd (u : tunit) (t : option Z)     (* np.timedelta64 *)
  | SStr (s : string).

Inductive array :=
  | AInts (l : list Z)
  | AFloats (l : list b64)
  | ADts (u : tunit) (l : list (option Z))
  | ATds (u : tunit) (l : list (option Z))
  | AObjs (l : list scalar).           (* dtype object *)

Definition alen (a : array) : Z :=
  match a with
  | AInts l => zlen l | AFloats l => zlen l | ADts _ l => zlen l | ATds _ l => zlen l | AObjs l => zlen l
  end.

(** np.asarray([x]) of a number or a time. *)
Definition asarray1 (x : scalar) : array :=
  match x with
  | SInt n => AInts [n]
  | SFloat f => AFloats [f]
  | SDt u t => ADts u [t]
  | STd u t => ATds u [t]
  | SNull | SStr _ => AObjs [x]
  end.

(** ** time.py 24-26: _float_array_to_ns. An integer array is multiplied as int64
    and rint turns it into floats. *)
Definition float_array_to_ns (l : list b64) : list Z :=
  map (fun x => int_of (frint (fmul x (float_of billion)))) l.
Definition int_array_to_ns (l : list Z) : list Z :=
  map (fun n => int_of (frint (float_of (wrap64 (n * billion))))) l.

(** ** time.py 350-363: to_float of an array. Object arrays only with numbers and None. *)
Definition obj_float (x : scalar) : result b64 :=
  match x with
  | SInt n => Ok (float_of n)
  | SFloat f => Ok f
  | SNull => Ok fnan
  | _ => Err Unmodelled
  end.
Fixpoint map_ok {A B} (f : A -> result B) (l : list A) : result (list B) :=
  match l with
  | [] => Ok []
  | x :: t => do y <- f x; do r <- map_ok f t; Ok (y :: r)
  end.
Definition array_to_float (a : array) : result (list b64) :=
  match a with
  | AInts l => Ok (map float_of l)
  | AFloats l => Ok l
  | ADts u l => Ok (map (fun t => td_seconds Ns (in_unit u Ns t)) l)
  | ATds u l => Ok (map (td_seconds u) l)
  | AObjs l => map_ok obj_float l
  end.

(** ** time.py 65-71, 83-112: to_datetime64. *)
(** The numeric branch, 104-111: non-finite values become NaT. *)
Definition floats_to_times (l : list b64) : list (option Z) :=
  let fin := map (fun x => if is_finite x then x else float_of 0) l in
  map (fun p => if is_finite (fst p) then time_of (snd p) else None)
      (combine l (float_array_to_ns fin)).

Definition drop_z (s : string) : string :=
  match rev (list_ascii_of_string s) with
  | c :: r => if Ascii.eqb c "Z" then string_of_list_ascii (rev r) else s
  | [] => s
  end.

(** Numbers and timedelta64 (a subclass of np.number); times; strings; nulls. *)
Definition to_datetime64_scalar (iso : string -> result (option Z)) (x : scalar) : result (option Z) :=
  match x with
  | SNull => Ok None
  | SStr s => iso (drop_z s)
  | SDt u t => Ok (in_unit u Ns t)
  | SInt _ | SFloat _ | STd _ _ =>
      do l <- array_to_float (asarray1 x);
      match floats_to_times l with t :: _ => Ok t | [] => Err IndexError end
  end.
Definition to_datetime64 (iso : string -> result (option Z)) (a : array) : result (list (option Z)) :=
  match a with
  | AObjs l => map_ok (to_datetime64_scalar iso) l
  | ADts u l => Ok (map (in_unit u Ns) l)
  | _ => do l <- array_to_float a; Ok (floats_to_times l)
  end.

(** ** time.py 147-262: to_timedelta64. *)
(** 199-230. Times are read off as the integers behind them, whatever their unit. *)
Definition to_timedelta64 (a : array) : result (list (option Z)) :=
  match a with
  | AObjs l => do l <- map_ok obj_float l; Ok (floats_to_times l)
  | ATds u l => Ok (map (in_unit u Ns) l)
  | ADts u l => Ok (map (fun t => time_of (int_behind t)) l)
  | AInts l => Ok (map time_of (int_array_to_ns l))
  | AFloats l => Ok (floats_to_times l)
  end.

(** str.split() on ASCII whitespace. *)
Definition blank (c : ascii) : bool :=
  let n := nat_of_ascii c in
  Nat.eqb n 32 || (Nat.leb 9 n && Nat.leb n 13) || (Nat.leb 28 n && Nat.leb n 31).
Fixpoint words_aux (cur s : list ascii) : list (list ascii) :=
  match s with
  | [] => match cur with [] => [] | _ => [rev cur] end
  | c :: t => if blank c then match cur with [] => words_aux [] t | _ => rev cur :: words_aux [] t end
              else words_aux (c :: cur) t
  end.
Definition words (s : string) : list string :=
  map string_of_list_ascii (words_aux [] (list_ascii_of_string s)).

(** Python's int() of a string without blanks or underscores. *)
Definition py_int (s : string) : option Z :=
  match s with
  | String "+" (String "-" _) => None
  | String "+" r => option_map Z.of_int (NilZero.int_of_string r)
  | _ => option_map Z.of_int (NilZero.int_of_string s)
  end.

(** constants.py 128-142: NUMPY_TIME_UNIT_MAPPING, without year and month. *)
Definition unit_mapping : list (string * tunit) :=
  [("hour", Hr); ("minute", Mn); ("second", Sc); ("millisecond", Ms); ("microsecond", Us);
   ("nanosecond", Ns); ("picosecond", Ps); ("femtosecond", Fs); ("attosecond", As);
   ("week", Wk); ("day", Dy)]%string.
Fixpoint unit_named (l : list (string * tunit)) (s : string) : option tunit :=
  match l with
  | [] => None
  | (k, u) :: t => if String.eqb k s then Some u else unit_named t s
  end.
(** [units[:-1]] if it ends in "s". *)
Definition drop_s (s : string) : string :=
  match rev (list_ascii_of_string s) with
  | c :: r => if Ascii.eqb c "s" then string_of_list_ascii (rev r) else s
  | [] => s
  end.
Definition lower (c : ascii) : ascii :=
  let n := nat_of_ascii c in
  if Nat.leb 65 n && Nat.leb n 90 then ascii_of_nat (n + 32) else c.
Definition str_lower (s : string) : string := string_of_list_ascii (map lower (list_ascii_of_string s)).

(** 247-262: _time_delta_from_str; the unit of the answer is the one named. *)
Definition time_delta_from_str (s : string) : result (tunit * option Z) :=
  match words s with
  | [val; units] =>
      let name := drop_s units in
      if String.eqb name "year" || String.eqb name "month" then Err Unmodelled
      else match unit_named unit_mapping name with
           | None => Err KeyError
           | Some u =>
               match py_int val with
               | None => Err ValueError
               | Some n => if in_int64 n then Ok (u, time_of n) else Err OverflowError
               end
           end
  | [val] => if String.eqb (str_lower val) "nat" then Ok (Ns, None) else Err TimeError
  | _ => Err TimeError
  end.

(** 178-197, 247-262. A datetime64 has no handler: NaT is null, the others are refused. *)
Definition to_timedelta64_scalar (x : scalar) : result (tunit * option Z) :=
  match x with
  | SNull => Ok (Ns, None)
  | SStr s => time_delta_from_str s
  | STd u t => Ok (Ns, in_unit u Ns t)
  | SDt u None => Ok (Ns, None)
  | SDt u (Some _) => Err NotImplemented
  | SInt _ | SFloat _ =>
      do l <- to_timedelta64 (asarray1 x);
      match l with t :: _ => Ok (Ns, t) | [] => Err IndexError end
  end.

(** ** time.py 265-338: to_int. Arrays of numbers are returned unchanged. *)
Inductive number := NInt (n : Z) | NFloat (x : b64).
Definition array_to_int (a : array) : result (list number) :=
  match a with
  | AInts l => Ok (map NInt l)
  | AFloats l => Ok (map NFloat l)
  | ADts u l => Ok (map (fun t => NInt (int_behind (in_unit u Ns t))) l)
  | ATds u l => Ok (map (fun t => NInt (int_behind (in_unit u Ns t))) l)
  | AObjs _ => Err Unmodelled
  end.
Definition to_int (x : scalar) : result number :=
  match x with
  | SNull => Ok (NFloat fnan)
  | SInt n => Ok (NInt n)
  | SFloat f => if is_finite f then Ok (NInt (Btrunc f)) else
                if is_nan f then Err ValueError else Err OverflowError
  | SDt u t | STd u t => Ok (NInt (int_behind (in_unit u Ns t)))
  | SStr _ => Err NotImplemented
  end.

(** ** time.py 341-394: to_float. *)
Definition to_float (x : scalar) : result b64 :=
  match x with
  | SNull => Ok fnan
  | SInt n => Ok (float_of n)
  | SFloat f => Ok f
  | SDt u t => Ok (td_seconds Ns (in_unit u Ns t))
  | STd u t => Ok (td_seconds Ns (in_unit u Ns t))
  | SStr _ => Err Unmodelled
  end.

(** numpy's str() of a timedelta64 in a unit with a plural name. *)
Definition unit_name (u : tunit) : string :=
  match u with
  | Wk => "week" | Dy => "day" | Hr => "hour" | Mn => "minute" | Sc => "second" | Ms => "millisecond"
  | Us => "microsecond" | Ns => "nanosecond" | Ps => "picosecond" | Fs => "femtosecond" | As => "attosecond"
  end%string.
Definition str_timedelta (u : tunit) (t : option Z) : string :=
  match t with
  | None => "NaT"
  | Some n => (NilZero.string_of_int (Z.to_int n) ++ " " ++ unit_name u ++ "s")%string
  end.
