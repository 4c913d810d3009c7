(** Model of dataframe filtering and trimming: dascore/utils/pd.py.

    A table is a list of column names and a list of rows; a row maps column names
    to cells. Times and numbers are integers; the time conversions of query values
    (_convert_times, to_datetime64) are taken as already done. Dicts are
    association lists; where the code iterates a set the order is the dict's. *)
From Verif Require Import Base.
From Coq Require Import Strings.String Strings.Ascii.
Local Open Scope Z_scope.

Inductive cell := VInt (n : Z) | VStr (s : string) | VNull.
(** [f_mod] is the private column "_modified" (false when absent, pd.py 509-517). *)
Record frow := mkRow { f_cells : list (string * cell); f_mod : bool }.

Fixpoint assoc {A} (k : string) (l : list (string * A)) : option A :=
  match l with [] => None | (k', v) :: t => if String.eqb k k' then Some v else assoc k t end.
Definition get_cell (r : frow) (k : string) : cell :=
  match assoc k (f_cells r) with Some c => c | None => VNull end.
Fixpoint assoc_set {A} (k : string) (v : A) (l : list (string * A)) : list (string * A) :=
  match l with
  | [] => [(k, v)]
  | (k', w) :: t => if String.eqb k k' then (k, v) :: t else (k', w) :: assoc_set k v t
  end.
Definition set_cell (r : frow) (k : string) (c : cell) : frow :=
  mkRow (assoc_set k c (f_cells r)) (f_mod r).
Definition mem (k : string) (l : list string) : bool := existsb (String.eqb k) l.

(** Query values: None, Ellipsis, a scalar, or a collection. *)
Inductive item := INone | IDots | ICell (c : cell).
Inductive qval := QNone | QDots | QVal (c : cell) | QColl (l : list item).
Definition kwargs := list (string * qval).

(** ** Strings *)
Fixpoint str_prefix (p s : string) : bool :=
  match p, s with
  | EmptyString, _ => true
  | String a p', String b s' => Ascii.eqb a b && str_prefix p' s'
  | _, _ => false
  end.
(** str.replace(pat, new) for non-empty [pat]: every non-overlapping occurrence
    from the left. [skip] counts characters of a match still to drop. *)
Fixpoint replace_from (skip : nat) (pat new s : string) : string :=
  match s with
  | EmptyString => EmptyString
  | String c t =>
      match skip with
      | S k => replace_from k pat new t
      | O => if str_prefix pat s
             then append new (replace_from (String.length pat - 1) pat new t)
             else String c (replace_from 0 pat new t)
      end
  end.
Definition str_replace (pat new s : string) : string := replace_from 0 pat new s.
Fixpoint str_rev (s acc : string) : string :=
  match s with EmptyString => acc | String c t => str_rev t (String c acc) end.
Definition str_suffix (p s : string) : bool :=
  str_prefix (str_rev p EmptyString) (str_rev s EmptyString).

(** pd.py 24-27 (fnmatch.translate, matched against the whole string): [*] any
    run of characters, [?] one character. Patterns with a bracket are rejected
    as not modelled. *)
Definition star : ascii := "*"%char.
Definition quest : ascii := "?"%char.
Fixpoint glob (p : string) (s : string) : bool :=
  match p with
  | EmptyString => match s with EmptyString => true | _ => false end
  | String c p' =>
      if Ascii.eqb c star then
        (fix any (s : string) : bool :=
           glob p' s || match s with EmptyString => false | String _ s' => any s' end) s
      else match s with
           | EmptyString => false
           | String d s' => (Ascii.eqb c quest || Ascii.eqb c d) && glob p' s'
           end
  end.
Fixpoint has_char (c : ascii) (s : string) : bool :=
  match s with EmptyString => false | String d t => Ascii.eqb c d || has_char c t end.
Definition bracket : ascii := "["%char.

(** ** Cells *)
Definition cell_eqb (a b : cell) : bool :=
  match a, b with
  | VInt x, VInt y => x =? y
  | VStr x, VStr y => String.eqb x y
  | _, _ => false
  end.
Definition is_null (c : cell) : bool := match c with VNull => true | _ => false end.
Definition is_str (c : cell) : bool := match c with VStr _ => true | _ => false end.
(** Series.isin: null entries match null cells. *)
Definition isin (l : list item) (c : cell) : bool :=
  existsb (fun i => match i with
                    | ICell VNull | INone => is_null c
                    | ICell d => cell_eqb c d
                    | IDots => false
                    end) l.
(** Comparisons between numbers; a null compares false. Anything else (strings,
    mixed types) is outside the model. *)
Definition cmp_ok (a : cell) : bool := match a with VStr _ => false | _ => true end.
Definition cell_lt (a b : cell) : bool :=
  match a, b with VInt x, VInt y => x <? y | _, _ => false end.
Definition cell_le (a b : cell) : bool :=
  match a, b with VInt x, VInt y => x <=? y | _, _ => false end.

Definition column (rows : list frow) (k : string) : list cell := map (fun r => get_cell r k) rows.
Definition mask := list bool.
Definition mask_and (a b : mask) : mask := map (fun p => fst p && snd p) (combine a b).

(** ** Splitting the query *)
Definition opt_bound (v : qval) : result (option cell) :=
  match v with
  | QNone | QDots => Ok None
  | QVal c => Ok (Some c)
  | QColl _ => Err Unmodelled
  end.
(** pd.py 42-63: _get_min_max_query; entries (base, is_max, bound) and the rest of
    the query. Keys of one base and end are assumed distinct. *)
Fixpoint min_max_query (cols : list string) (kw : kwargs)
  : result (list (string * bool * option cell) * kwargs) :=
  match kw with
  | [] => Ok ([], [])
  | (k, v) :: t =>
      do x <- min_max_query cols t;
      let '(mm, rest) := x in
      if str_suffix "_max" k && negb (mem k cols)
      then do b <- opt_bound v; Ok ((str_replace "_max" "" k, true, b) :: mm, rest)
      else if str_suffix "_min" k && negb (mem k cols)
      then do b <- opt_bound v; Ok ((str_replace "_min" "" k, false, b) :: mm, rest)
      else Ok (mm, (k, v) :: rest)
  end.

Definition item_bound (i : item) : option cell :=
  match i with ICell c => Some c | _ => None end.
Definition has_interval (cols : list string) (k : string) : bool :=
  mem (append k "_min") cols && mem (append k "_max") cols.

(** pd.py 66-110: split_df_query; (column queries, range queries, unsupported). *)
Fixpoint split_query (cols : list string) (kw : kwargs)
  : result (kwargs * list (string * (option cell * option cell)) * list string) :=
  match kw with
  | [] => Ok ([], [], [])
  | (k, v) :: t =>
      do x <- split_query cols t;
      let '(out, rng, bad) := x in
      if mem k cols then Ok ((k, v) :: out, rng, bad)
      else match v with
           | QNone => Ok (out, rng, bad)
           | QColl l =>
               if has_interval cols k
               then match l with
                    | [a; b] => Ok (out, (k, (item_bound a, item_bound b)) :: rng, bad)
                    | _ => Ok (out, rng, k :: bad)
                    end
               else Ok (out, rng, k :: bad)
           | QVal (VStr s) =>
               if has_interval cols k && Nat.eqb (String.length s) 2 then Err Unmodelled
               else Ok (out, rng, k :: bad)
           | QVal _ | QDots =>
               if has_interval cols k then Err TypeError else Ok (out, rng, k :: bad)
           end
  end.

(** misc.py 595-600: order_range_tuple. *)
Definition order_range (r : option cell * option cell) : result (option cell * option cell) :=
  match r with
  | (Some a, Some b) =>
      if cmp_ok a && cmp_ok b then Ok (if cell_lt b a then (Some b, Some a) else (Some a, Some b))
      else Err Unmodelled
  | _ => Ok r
  end.

Fixpoint order_ranges (l : list (string * (option cell * option cell)))
  : result (list (string * (option cell * option cell))) :=
  match l with
  | [] => Ok []
  | (k, r) :: t => do r' <- order_range r; do t' <- order_ranges t; Ok ((k, r') :: t')
  end.

(** ** Masks *)
(** pd.py 126-137: _filter_equality for one key. [== None] is false everywhere. *)
Definition equality_mask (rows : list frow) (k : string) (v : qval) : result mask :=
  match v with
  | QVal (VStr p) =>
      if has_char bracket p || negb (forallb is_str (column rows k)) then Err Unmodelled
      else Ok (map (fun c => match c with VStr s => glob p s | _ => false end) (column rows k))
  | QVal c => Ok (map (fun d => cell_eqb d c) (column rows k))
  | QNone | QDots => Ok (map (fun _ => false) (column rows k))
  | QColl _ => Err Unmodelled
  end.

(** pd.py 140-166: _check_misdirected_range_query. *)
Definition open_item (i : item) : bool := match i with ICell _ => false | _ => true end.
Definition drop_last4 (s : string) : string := substring 0 (String.length s - 4) s.
Definition misdirected (cols : list string) (k : string) (l : list item) : bool :=
  (str_suffix "_min" k || str_suffix "_max" k)
  && has_interval cols (drop_last4 k)
  && (zlen l =? 2) && existsb open_item l.

(** pd.py 169-174: _filter_contains for one key. *)
Definition contains_mask (cols : list string) (rows : list frow) (k : string) (l : list item)
  : result mask :=
  if misdirected cols k l then Err ParameterError
  else Ok (map (isin l) (column rows k)).

(** pd.py 177-185: _filter_range for one entry. *)
Definition range_mask (cols : list string) (rows : list frow) (e : string * bool * option cell)
  : result mask :=
  let '(k, is_max, bound) := e in
  if mem k cols then
    match bound with
    | None => Ok (map (fun _ => true) rows)
    | Some b =>
        if cmp_ok b && forallb cmp_ok (column rows k)
        then Ok (map (fun c => if is_max then cell_le c b else cell_le b c) (column rows k))
        else Err Unmodelled
    end
  else Err KeyError.

(** pd.py 188-204: _filter_multicolumn_range for one entry. *)
Definition multi_mask (rows : list frow) (e : string * (option cell * option cell)) : result mask :=
  let '(k, (lo, hi)) := e in
  let mins := column rows (append k "_min") in
  let maxs := column rows (append k "_max") in
  let ok b := match b with None => true | Some c => cmp_ok c end in
  if ok lo && ok hi && forallb cmp_ok mins && forallb cmp_ok maxs then
    Ok (map (fun p =>
          let '(mn, mx) := p in
          match lo with None => true | Some a => negb (cell_lt mx a) end
          && match hi with None => true | Some b => negb (cell_lt b mn) end
          && negb (is_null mn || is_null mx)) (combine mins maxs))
  else Err Unmodelled.

(** Conjunction of masks, the first error wins. *)
Fixpoint all_masks {A} (f : A -> result mask) (l : list A) (m : mask) : result mask :=
  match l with
  | [] => Ok m
  | x :: t => do n <- f x; all_masks f t (mask_and m n)
  end.

Definition is_coll (v : qval) : bool := match v with QColl _ => true | _ => false end.

(** pd.py 323-366: filter_df. *)
Definition filter_df (cols : list string) (rows : list frow) (ignore_bad : bool) (kw : kwargs)
  : result mask :=
  do x <- min_max_query cols kw;
  let '(mm, kw) := x in
  do y <- split_query cols kw;
  let '(out, rng, bad) := y in
  if negb ignore_bad && negb (zlen bad =? 0) then Err ParameterError
  else
    do rng <- order_ranges rng;
    do m <- all_masks (fun p => equality_mask rows (fst p) (snd p))
                      (filter (fun p => negb (is_coll (snd p))) out) (map (fun _ => true) rows);
    do m <- all_masks (fun p => contains_mask cols rows (fst p)
                                  match snd p with QColl l => l | _ => [] end)
                      (filter (fun p => is_coll (snd p)) out) m;
    do m <- all_masks (range_mask cols rows) mm m;
    all_masks (multi_mask rows) rng m.

Definition keep_rows {A} (m : mask) (rows : list A) : list A :=
  map snd (filter (fun p => fst p) (combine m rows)).

(** misc.py 567-592: sanitize_range_param on a query value. *)
Definition sanitize_range (v : qval) : result (option cell * option cell) :=
  match v with
  | QNone | QDots => Ok (None, None)
  | QColl [a; b] => Ok (item_bound a, item_bound b)
  | _ => Err ParameterError
  end.

(** pd.py 292-320, the loop body of adjust_segments for one name: clamp the
    interval columns. An absent bound is the minimum (maximum) of the column,
    below (above) which no value lies. *)
Definition clamp_row (k : string) (lo hi : option cell) (r : frow) : frow :=
  let mn := get_cell r (append k "_min") in
  let mx := get_cell r (append k "_max") in
  let small := match lo with None => false | Some a => cell_lt mn a end in
  let large := match hi with None => false | Some b => cell_lt b mx end in
  let r1 := if large then match hi with Some b => set_cell r (append k "_max") b | None => r end else r in
  let r2 := if small then match lo with Some a => set_cell r1 (append k "_min") a | None => r1 end else r1 in
  mkRow (f_cells r2) (f_mod r || small || large).

(** pd.py 258-289: the names whose query is a range on an interval. *)
Definition range_names (cols : list string) (kw : kwargs) : kwargs :=
  filter (fun p => has_interval cols (fst p) && negb (mem (fst p) cols)) kw.

Fixpoint clamp_all (ranges : kwargs) (rows : list frow) : result (list frow) :=
  match ranges with
  | [] => Ok rows
  | (k, v) :: t =>
      do r <- sanitize_range v;
      do r <- order_range r;
      let '(lo, hi) := r in
      clamp_all t (map (clamp_row k lo hi) rows)
  end.

(** pd.py 292-320: adjust_segments. The column "<name>_step", which
    get_interval_columns requires, is checked first. *)
Definition adjust_segments (cols : list string) (rows : list frow) (ignore_bad : bool) (kw : kwargs)
  : result (list frow) :=
  do m <- filter_df cols rows ignore_bad kw;
  let out := keep_rows m rows in
  if forallb (fun p => mem (append (fst p) "_step") cols) (range_names cols kw)
  then clamp_all (range_names cols kw) out
  else Err ParameterError.

(** pd.py 30-39: _remove_base_path on a posix system (os.sep is "/"), and
    dirspool.py 116-126: joining the stored path with the directory. *)
Definition remove_base_path (base path : string) : string :=
  str_replace (append base "/") "" path.
Definition join_path (base stored : string) : string := append base (append "/" stored).
