(** Specification vocabulary for table filtering and trimming, written without
    the masks, splits and helpers of FrameModel. *)
From Verif Require Import Base FrameModel.
From Coq Require Import Strings.String Strings.Ascii.
Local Open Scope Z_scope.
Local Open Scope string_scope.

(** Unix-style matching of a whole string. *)
Inductive Matches : string -> string -> Prop :=
| M_nil : Matches "" ""
| M_star0 p s : Matches p s -> Matches (String "*" p) s
| M_starS p c s : Matches (String "*" p) s -> Matches (String "*" p) (String c s)
| M_quest p c s : Matches p s -> Matches (String "?" p) (String c s)
| M_char c p s : c <> "*"%char -> c <> "?"%char -> Matches p s ->
    Matches (String c p) (String c s).

(** The value of a row in a column. *)
Definition val (r : frow) (k : string) : cell := get_cell r k.

Definition item_is (i : item) (c : cell) : Prop :=
  match i with
  | INone | ICell VNull => c = VNull
  | IDots => False
  | ICell d => c = d
  end.

(** A query on an existing column. *)
Definition column_query (c : cell) (v : qval) : Prop :=
  match v with
  | QNone | QDots | QVal VNull => False
  | QVal (VStr p) => exists s, c = VStr s /\ Matches p s
  | QVal (VInt n) => c = VInt n
  | QColl l => exists i, In i l /\ item_is i c
  end.

Definition below (c b : cell) : Prop := exists x y, c = VInt x /\ b = VInt y /\ x <= y.

(** The bound given by a scalar query, if any. *)
Definition bound_of (v : qval) : option cell :=
  match v with QVal c => Some c | _ => None end.

(** The smaller and larger end of a two-item range. *)
Definition low_end (a b : item) (x : Z) : Prop :=
  match a, b with
  | ICell (VInt m), ICell (VInt n) => x = Z.min m n
  | ICell (VInt m), _ => x = m
  | _, _ => False
  end.
Definition high_end (a b : item) (x : Z) : Prop :=
  match a, b with
  | ICell (VInt m), ICell (VInt n) => x = Z.max m n
  | _, ICell (VInt n) => x = n
  | _, _ => False
  end.
(** The interval [mn, mx] of a row meets the range. *)
Definition interval_query (mn mx : cell) (a b : item) : Prop :=
  exists s e, mn = VInt s /\ mx = VInt e /\
    (forall x, low_end a b x -> x <= e) /\ (forall x, high_end a b x -> s <= x).

Definition has_col (cols : list string) (k : string) : Prop := In k cols.

(** What one keyword asks of a row. *)
Definition meets (cols : list string) (r : frow) (k : string) (v : qval) : Prop :=
  (has_col cols k -> column_query (val r k) v) /\
  (~ has_col cols k -> forall base, k = base ++ "_max" ->
     forall b, bound_of v = Some b -> below (val r base) b) /\
  (~ has_col cols k -> forall base, k = base ++ "_min" ->
     forall b, bound_of v = Some b -> below b (val r base)) /\
  (~ has_col cols k -> (forall base, k <> base ++ "_max") -> (forall base, k <> base ++ "_min") ->
     has_col cols (k ++ "_min") -> has_col cols (k ++ "_max") ->
     forall a b, v = QColl [a; b] -> interval_query (val r (k ++ "_min")) (val r (k ++ "_max")) a b).

(** [pat] occurs in [s] at some place. *)
Definition occurs (pat s : string) : Prop := exists a b, s = a ++ pat ++ b.
(** The suffix of a "_max" or "_min" key is its only occurrence. *)
Definition plain_key (k : string) : Prop :=
  forall suf a b, suf = "_max" \/ suf = "_min" -> k = a ++ suf ++ b ->
    (exists base, k = base ++ suf) -> b = "".

(** Row-by-row trimming. *)
Definition trimmed (r r' : frow) (k : string) (a b : item) : Prop :=
  forall s e, val r (k ++ "_min") = VInt s -> val r (k ++ "_max") = VInt e ->
  exists s' e', val r' (k ++ "_min") = VInt s' /\ val r' (k ++ "_max") = VInt e' /\
    ((forall x, ~ low_end a b x) /\ s' = s \/ exists x, low_end a b x /\ s' = Z.max s x) /\
    ((forall x, ~ high_end a b x) /\ e' = e \/ exists x, high_end a b x /\ e' = Z.min e x).

(** Why a keyword is refused. *)
Definition suffixed (k : string) : Prop := exists base, k = base ++ "_max" \/ k = base ++ "_min".
Definition interval (cols : list string) (k : string) : Prop :=
  has_col cols (k ++ "_min") /\ has_col cols (k ++ "_max").
Definition number_or_null (c : cell) : Prop := forall s, c <> VStr s.
Definition open_end (i : item) : Prop := i = INone \/ i = IDots.
Definition contains_char (c : ascii) (s : string) : Prop := exists a b, s = a ++ String c b.

Inductive Refused (cols : list string) (rows : list frow) (ignore : bool) (k : string)
  : qval -> exn -> Prop :=
(* <name>_min / <name>_max that is not itself a column *)
| R_suffix_coll l : ~ has_col cols k -> suffixed k -> Refused cols rows ignore k (QColl l) Unmodelled
| R_suffix_missing v base : ~ has_col cols k -> k = base ++ "_max" \/ k = base ++ "_min" ->
    ~ has_col cols base -> Refused cols rows ignore k v KeyError
| R_suffix_str v base b : ~ has_col cols k -> k = base ++ "_max" \/ k = base ++ "_min" ->
    bound_of v = Some b ->
    ~ (number_or_null b /\ forall r, In r rows -> number_or_null (val r base)) ->
    Refused cols rows ignore k v Unmodelled
(* a column *)
| R_pattern p : has_col cols k ->
    contains_char "[" p \/ (exists r, In r rows /\ forall s, val r k <> VStr s) ->
    Refused cols rows ignore k (QVal (VStr p)) Unmodelled
| R_misdirected base a b : has_col cols k -> k = base ++ "_min" \/ k = base ++ "_max" ->
    interval cols base -> open_end a \/ open_end b ->
    Refused cols rows ignore k (QColl [a; b]) ParameterError
(* neither *)
| R_not_sized v : ~ has_col cols k -> ~ suffixed k -> interval cols k ->
    v = QDots \/ (exists n, v = QVal (VInt n)) \/ v = QVal VNull ->
    Refused cols rows ignore k v TypeError
| R_two_chars s : ~ has_col cols k -> ~ suffixed k -> interval cols k -> String.length s = 2%nat ->
    Refused cols rows ignore k (QVal (VStr s)) Unmodelled
| R_string_range a b : ~ has_col cols k -> ~ suffixed k -> interval cols k ->
    ~ ((forall c, a = ICell c -> number_or_null c) /\ (forall c, b = ICell c -> number_or_null c) /\
       forall r, In r rows -> number_or_null (val r (k ++ "_min")) /\ number_or_null (val r (k ++ "_max"))) ->
    Refused cols rows ignore k (QColl [a; b]) Unmodelled
| R_unknown v : ignore = false -> ~ has_col cols k -> ~ suffixed k -> v <> QNone ->
    (interval cols k -> forall a b, v <> QColl [a; b]) ->
    Refused cols rows ignore k v ParameterError.
