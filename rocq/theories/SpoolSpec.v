(** Specification vocabulary for spools: what a list of patches does under the
    same operations, written without the three tables. *)
From Verif Require Import Base FrameModel FrameSpec SpoolModel.
From Coq Require Import Strings.String Sorting.Permutation.
Local Open Scope Z_scope.
Local Open Scope list_scope.

(** Python indexing of a list. *)
Definition py_get {A} (l : list A) (i : Z) (x : A) : Prop :=
  (0 <= i < zlen l /\ znth l i = Some x) \/ (- zlen l <= i < 0 /\ znth l (zlen l + i) = Some x).

(** The items at the given positions. *)
Definition items_at {A} (l : list A) (ps : list Z) (out : list A) : Prop :=
  Forall2 (fun p x => znth l p = Some x) ps out.

(** Positions of a list python's slice [a:b] picks, for any integers. *)
Definition clip (n i : Z) : Z := if i <? 0 then Z.max 0 (n + i) else Z.min n i.
Definition between_positions (n a b p : Z) : Prop := clip n a <= p < clip n b.

(** The coordinate value is inside a range with optional ends, in either order. *)
Definition inside (a b : item) (x : Z) : Prop :=
  (forall m, low_end a b m -> m <= x) /\ (forall m, high_end a b m -> x <= m).

(** An entry: the row shown, and the ranges selected so far along one dimension. *)
Record entry := mkEntry { e_row : frow; e_ranges : list (item * item) }.

Inductive sop := OSlice (sl : pyslice) | OArray (ix : indexer) | OSort (attr : string) | OSelect (kw : kwargs).

Fixpoint sp_run (argsort : list Z -> list Z) (s : spool) (ops : list sop) : result spool :=
  match ops with
  | [] => Ok s
  | op :: t =>
      do s' <- match op with
               | OSlice sl => sp_slice s sl
               | OArray ix => sp_array s ix
               | OSort a => sp_sort argsort s a
               | OSelect kw => sp_select s kw
               end;
      sp_run argsort s' t
  end.

(** The ranges a query asks for along dimension [k]. *)
Definition asked (k : string) (kw : kwargs) (rs : list (item * item)) : Prop :=
  forall a b, In (a, b) rs <-> In (k, QColl [a; b]) kw.

(** [r'] is [r] with its intervals cut to the query. *)
Definition cut (cols : list string) (kw : kwargs) (r r' : frow) : Prop :=
  (forall c, (forall k, In k (map fst kw) -> ~ has_col cols k -> c <> append k "_min" /\ c <> append k "_max") ->
     val r' c = val r c) /\
  (forall k a b, In (k, QColl [a; b]) kw -> ~ has_col cols k -> interval cols k -> trimmed r r' k a b).

(** One operation on the list of entries. *)
Definition spec_op (k : string) (cols : list string) (op : sop) (l l' : list entry) : Prop :=
  match op with
  | OSlice sl => exists ps, slice_positions (zlen l) sl = Some ps /\ items_at l ps l'
  | OArray ix => exists ps, indexer_positions (zlen l) ix = Some ps /\ items_at l ps l'
  | OSort attr =>
      exists col, (has_col cols attr /\ col = attr \/
                   ~ has_col cols attr /\ col = append attr "_min" /\ has_col cols col) /\
      Permutation l l' /\
      exists keys, map (fun e => val (e_row e) col) l' = map VInt keys /\
        forall i j a b, i <= j -> znth keys i = Some a -> znth keys j = Some b -> a <= b
  | OSelect kw =>
      exists P,
      (forall e, In e l -> (P e = true <-> forall q v, In (q, v) kw -> meets cols (e_row e) q v)) /\
      Forall2 (fun e e' => cut cols kw (e_row e) (e_row e') /\
                 exists rs, asked k kw rs /\ e_ranges e' = rs ++ e_ranges e) (filter P l) l'
  end.
Fixpoint spec_run (k : string) (cols : list string) (ops : list sop) (l l' : list entry) : Prop :=
  match ops with
  | [] => l' = l
  | op :: t => exists m, spec_op k cols op l m /\ spec_run k cols t m l'
  end.

(** Column names of a spool's tables: [icols] are the interval columns of [cols],
    and no column is named like a dimension. *)
Record tables (cols icols : list string) : Prop :=
  { t_sub : forall c, In c icols -> In c cols;
    t_interval : forall q, interval cols q -> interval icols q /\ ~ has_col cols q }.

(** A query whose keywords are columns, dimensions or unknown names; the last two
    not ending in _min or _max. *)
Definition clear_query (cols icols : list string) (kw : kwargs) : Prop :=
  NoDup (map fst kw) /\
  forall q, In q (map fst kw) -> has_col icols q \/ ~ suffixed q.

(** The row's limits along [k] bound the coordinate values of its patch. *)
Definition truthful {D} (k : string) (load : frow -> list (Z * D)) (r : frow) : Prop :=
  exists a b, val r (append k "_min") = VInt a /\ val r (append k "_max") = VInt b /\ a <= b /\
    forall x, In x (map fst (load r)) -> a <= x <= b.

(** Every instruction has its source row. *)
Definition sourced (s : spool) : Prop := forall r, In r (sp_ins s) -> In (n_src r) (map fst (sp_src s)).

(** The same part, listed under another label. *)
Definition with_cur (j : Z) (x : part) : part := (mkIrow (n_src (fst x)) (Some j) (n_row (fst x)), snd x).
