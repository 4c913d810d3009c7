(** Model of the dataframe spool (dascore/core/spool.py 406-814): indexing,
    slicing, array selection, splitting, sorting, selecting.

    A spool is three tables (pandas dataframes): the contents as they will be
    output, the sources, and the instructions that say which source rows make up
    which output row. Index labels are integers and need not be unique. Patches
    are not part of the tables; a source row stands for its patch. *)
From Verif Require Import Base CoordModel FrameModel ChunkModel.
From Coq Require Import Strings.String.
Local Open Scope Z_scope.
Local Open Scope list_scope.

(** An instruction row. [n_src] is its index label (the source row it uses),
    [n_cur] the label of the output row ([None] is NaN). *)
Record irow := mkIrow { n_src : Z; n_cur : option Z; n_row : frow }.

(** [sp_cols], [sp_icols], [sp_scols] are the column names; [sp_sel] the keywords
    of select that no column answers (spool.py 418). *)
Record spool := mkSpool
  { sp_cols : list string; sp_df : list (Z * frow);
    sp_icols : list string; sp_ins : list irow;
    sp_scols : list string; sp_src : list (Z * frow);
    sp_sel : kwargs }.

(** spool.py 648-669: _get_dummy_dataframes. The frame's index labels become both
    source and current index; the rows are sorted by label. [icols] are the
    interval columns, the only ones an instruction keeps; no row counts as
    modified. *)
Definition interval_cells (icols : list string) (r : frow) : frow :=
  mkRow (filter (fun p => mem (fst p) icols) (f_cells r)) false.
Fixpoint insert_row (r : Z * frow) (l : list (Z * frow)) : list (Z * frow) :=
  match l with
  | [] => [r]
  | s :: t => if fst r <=? fst s then r :: l else s :: insert_row r t
  end.
Definition sort_rows (l : list (Z * frow)) : list (Z * frow) := fold_right insert_row [] l.
Definition dummy_spool (cols icols : list string) (df : list (Z * frow)) : spool :=
  mkSpool cols df icols (map (fun r => mkIrow (fst r) (Some (fst r)) (interval_cells icols (snd r))) (sort_rows df)) cols df [].

(** spool.py 478: len. *)
Definition sp_len (s : spool) : Z := zlen (sp_df s).

(** ** Getting one patch *)

Definition cur_is (label : Z) (r : irow) : bool :=
  match n_cur r with Some c => c =? label | None => false end.

(** One row of the joined table: an instruction with its source. *)
Definition part := (irow * frow)%type.

(** [df1.join(source)], spool.py 516: every source row with the instruction's
    label. A label without source (NaN cells) is not modelled. *)
Definition join_one (src : list (Z * frow)) (r : irow) : result (list part) :=
  match filter (fun x => fst x =? n_src r) src with
  | [] => Err Unmodelled
  | l => Ok (map (fun x => (r, snd x)) l)
  end.

Definition opt_cell_eqb (a b : cell) : bool :=
  match a, b with VNull, VNull => true | _, _ => cell_eqb a b end.
Fixpoint cells_eqb (a b : list (string * cell)) : bool :=
  match a, b with
  | [], [] => true
  | (k, v) :: s, (l, w) :: t => String.eqb k l && opt_cell_eqb v w && cells_eqb s t
  | _, _ => false
  end.
Definition frow_eqb (a b : frow) : bool :=
  cells_eqb (f_cells a) (f_cells b) && Bool.eqb (f_mod a) (f_mod b).
Definition opt_eqb (a b : option Z) : bool :=
  match a, b with Some x, Some y => x =? y | None, None => true | _, _ => false end.
(** Same values in every joined column; the index label is not a column. *)
Definition part_eqb (a b : part) : bool :=
  opt_eqb (n_cur (fst a)) (n_cur (fst b)) && frow_eqb (n_row (fst a)) (n_row (fst b))
  && frow_eqb (snd a) (snd b).
(** pandas drop_duplicates, keep="first". *)
Fixpoint drop_dups (seen : list part) (l : list part) : list part :=
  match l with
  | [] => []
  | x :: t => if existsb (part_eqb x) seen then drop_dups seen t
              else x :: drop_dups (x :: seen) t
  end.

(** spool.py 495-523: _get_patches_from_index up to the joined table. A negative
    index is wrapped here and once more by pandas. *)
Definition sp_parts (s : spool) (i : Z) : result (list part) :=
  let n := sp_len s in
  let i := if 0 <=? i then i else n + i in
  match znth (sp_df s) (wrap_index n i) with
  | None => Err IndexError
  | Some row =>
      match filter (cur_is (fst row)) (sp_ins s) with
      | [] => Err AssertionError
      | rows =>
          do parts <- map_result (join_one (sp_src s)) rows;
          let joined := List.concat parts in
          Ok (if 10 <? zlen joined then drop_dups [] joined else joined)
      end
  end.

(** spool.py 868-880: a MemorySpool made from patches and without select keywords
    answers integer requests from its tuple of patches. *)
Definition mem_get {P} (patches : list P) (i : Z) : result P :=
  match znth patches (wrap_index (zlen patches) i) with Some p => Ok p | None => Err IndexError end.

(** spool.py 553-571: the select arguments applied to a loaded patch, as the
    limits along one dimension [k], and the left-over keywords. A modified row
    uses its own limits and not the left-over keywords. *)
Definition part_limits (k : string) (x : part) : cell * cell :=
  (get_cell (n_row (fst x)) (append k "_min"), get_cell (n_row (fst x)) (append k "_max")).
Definition part_extra (s : spool) (x : part) : kwargs :=
  if f_mod (n_row (fst x)) then [] else sp_sel s.

(** The samples of a loaded and trimmed patch along [k]: (coordinate, data).
    Limits are integers here; others are not trimmed. *)
Definition load_part {D} (k : string) (load : frow -> list (Z * D)) (x : part) : list (Z * D) :=
  match part_limits k x with
  | (VInt a, VInt b) => load_trimmed (load (snd x)) (mkInstr a b 0 0 (f_mod (n_row (fst x))))
  | _ => load (snd x)
  end.

(** spool.py 525-551 with 69-108, 573-646 and utils/patch.py 388-470: the samples
    of one output patch when nothing but the limits along [k] varies. Several rows
    with the same limits are complete overlap: the first is returned. *)
Definition same_limits (k : string) (a b : part) : bool :=
  opt_cell_eqb (fst (part_limits k a)) (fst (part_limits k b))
  && opt_cell_eqb (snd (part_limits k a)) (snd (part_limits k b)).
Definition sp_samples {D} (k : string) (load : frow -> list (Z * D)) (s : spool) (i : Z)
  : result (list (Z * D)) :=
  do parts <- sp_parts s i;
  match parts with
  | [] => Err AssertionError
  | x :: t =>
      if forallb (same_limits k x) t then Ok (load_part k load x)
      else Ok (List.concat (map (load_part k load) parts))
  end.

(** ** Sub-spools *)

(** [source.loc[labels]]: the rows of every label in turn; KeyError if a label is
    missing. *)
Definition loc (src : list (Z * frow)) (labels : list Z) : result (list (Z * frow)) :=
  do l <- map_result (fun k => match filter (fun x => fst x =? k) src with
                               | [] => Err KeyError | r => Ok r end) labels;
  Ok (List.concat l).

Definition in_index (df : list (Z * frow)) (r : irow) : bool :=
  existsb (fun x => cur_is (fst x) r) df.

(** spool.py 460-471: a slice. *)
Definition sp_slice (s : spool) (sl : pyslice) : result spool :=
  match np_index (sp_df s) (IxSlice sl) with
  | None => Err ValueError
  | Some df =>
      let ins := filter (in_index df) (sp_ins s) in
      do src <- loc (sp_src s) (map n_src ins);
      Ok (mkSpool (sp_cols s) df (sp_icols s) ins (sp_scols s) src (sp_sel s))
  end.

(** spool.py 439-458: a boolean or integer array. Instructions and sources are
    kept. *)
Definition sp_array (s : spool) (ix : indexer) : result spool :=
  match np_index (sp_df s) ix with
  | None => match ix with IxBools _ => Err ValueError | _ => Err IndexError end
  | Some df => Ok (mkSpool (sp_cols s) df (sp_icols s) (sp_ins s) (sp_scols s) (sp_src s) (sp_sel s))
  end.

(** spool.py 793-807: split. [None] for the python None. [split_run] is the loop
    run for at most [fuel] rounds; [Some] pieces when it has ended. *)
Definition split_step (n : Z) (size count : option Z) : result Z :=
  match size, count with
  | Some sz, None => Ok sz
  | None, Some c => if c =? 0 then Err TypeError else Ok (ceil_div n c)
  | _, _ => Err ParameterError
  end.
Fixpoint split_run (fuel : nat) (s : spool) (start step : Z) : option (result (list spool)) :=
  if start <? sp_len s then
    match fuel with
    | O => None
    | S f =>
        match sp_slice s (mkSlice (Some start) (Some (start + step)) None) with
        | Err e => Some (Err e)
        | Ok p => match split_run f s (start + step) step with
                  | None => None
                  | Some (Err e) => Some (Err e)
                  | Some (Ok l) => Some (Ok (p :: l))
                  end
        end
    end
  else Some (Ok []).
Definition sp_split (fuel : nat) (s : spool) (size count : option Z) : option (result (list spool)) :=
  match split_step (sp_len s) size count with
  | Err e => Some (Err e)
  | Ok step => split_run fuel s 0 step
  end.

(** spool.py 763-791: sort by a column with integer cells (others are not
    modelled). [argsort] is the order of df.sort_values, ties in any order. A
    repeated label makes Series.map fail (pandas InvalidIndexError, here
    ValueError). *)
Definition sort_column (s : spool) (attr : string) : result string :=
  if mem attr (sp_cols s) then Ok attr
  else if mem (append attr "_min") (sp_cols s) then Ok (append attr "_min")
  else Err IndexError.
Fixpoint ints_of (l : list cell) : option (list Z) :=
  match l with
  | [] => Some []
  | VInt x :: t => match ints_of t with Some r => Some (x :: r) | None => None end
  | _ => None
  end.
Fixpoint position (k : Z) (l : list Z) : option Z :=
  match l with
  | [] => None
  | x :: t => if x =? k then Some 0 else option_map (Z.add 1) (position k t)
  end.
Fixpoint dup_labels (l : list Z) : bool :=
  match l with [] => false | x :: t => existsb (Z.eqb x) t || dup_labels t end.
Definition relabel (labels : list Z) (r : irow) : irow :=
  mkIrow (n_src r) (match n_cur r with Some c => position c labels | None => None end) (n_row r).
Definition sp_sort (argsort : list Z -> list Z) (s : spool) (attr : string) : result spool :=
  do col <- sort_column s attr;
  match ints_of (column (map snd (sp_df s)) col) with
  | None => Err Unmodelled
  | Some keys =>
      match gather (sp_df s) (argsort keys) with
      | None => Err IndexError
      | Some rows =>
          if dup_labels (map fst rows) then Err ValueError
          else
            Ok (mkSpool (sp_cols s) (combine (zrange (zlen rows)) (map snd rows)) (sp_icols s)
                        (map (relabel (map fst rows)) (sp_ins s)) (sp_scols s) (sp_src s) (sp_sel s))
      end
  end.

(** ** Select *)
(** adjust_segments on a labelled table: rows keep their labels. *)
Definition adjust_labelled (cols : list string) (rows : list (Z * frow)) (kw : kwargs)
  : result (list (Z * frow)) :=
  do m <- filter_df cols (map snd rows) true kw;
  do out <- adjust_segments cols (map snd rows) true kw;
  Ok (combine (map fst (keep_rows m rows)) out).
Definition adjust_irows (cols : list string) (rows : list irow) (kw : kwargs) : result (list irow) :=
  do m <- filter_df cols (map n_row rows) true kw;
  do out <- adjust_segments cols (map n_row rows) true kw;
  Ok (map (fun p => mkIrow (n_src (fst p)) (n_cur (fst p)) (snd p)) (combine (keep_rows m rows) out)).

(** pd.py 66-110: the keywords without a matching column (third result). *)
Definition extra_kwargs (cols : list string) (kw : kwargs) : result kwargs :=
  do y <- split_query cols kw;
  Ok (filter (fun p => mem (fst p) (snd y)) kw).

(** spool.py 741-761. *)
Definition set_kw (new base : kwargs) : kwargs :=
  fold_left (fun acc e => assoc_set (fst e) (snd e) acc) new base.
Definition sp_select (s : spool) (kw : kwargs) : result spool :=
  do extra <- extra_kwargs (sp_cols s) kw;
  do df <- adjust_labelled (sp_cols s) (sp_df s) kw;
  do ins <- adjust_irows (sp_icols s) (sp_ins s) kw;
  let ins := filter (in_index df) ins in
  do src0 <- loc (sp_src s) (map n_src ins);
  do src <- adjust_labelled (sp_scols s) src0 kw;
  Ok (mkSpool (sp_cols s) df (sp_icols s) ins (sp_scols s) src (set_kw extra (sp_sel s))).

(** spool.py 809-812: get_contents. *)
Definition sp_contents (s : spool) : result (list (Z * frow)) :=
  do m <- filter_df (sp_cols s) (map snd (sp_df s)) false (sp_sel s);
  Ok (keep_rows m (sp_df s)).

(** ** Chunk *)
(** spool.py 683-713 with chunk.py: chunking reads the source table only. For a
    table of one group (equal group columns and attributes); the tables keep the
    columns of the chunked dimension. *)
Definition seg_of (k : string) (x : Z * frow) : option seg :=
  match get_cell (snd x) (append k "_min"), get_cell (snd x) (append k "_max") with
  | VInt a, VInt b =>
      Some (mkSeg (fst x) a b match get_cell (snd x) (append k "_step") with VInt d => Some d | _ => None end
                  0 0 0 (f_mod (snd x)))
  | _, _ => None
  end.
Fixpoint segs_of (k : string) (l : list (Z * frow)) : option (list seg) :=
  match l with
  | [] => Some []
  | x :: t => match seg_of k x, segs_of k t with Some g, Some r => Some (g :: r) | _, _ => None end
  end.
Definition limit_cols (k : string) : list string := [append k "_min"; append k "_max"; append k "_step"].
Definition limit_row (k : string) (mn mx : Z) (st : option Z) (m : bool) : frow :=
  mkRow [(append k "_min", VInt mn); (append k "_max", VInt mx);
         (append k "_step", match st with Some d => VInt d | None => VNull end)] m.
Definition sp_chunk (argsort : list Z -> list Z) (c : chunker) (k : string) (s : spool) : result spool :=
  match segs_of k (sp_src s) with
  | None => Err Unmodelled
  | Some rows =>
      do x <- spool_chunk argsort c rows;
      Ok (mkSpool (limit_cols k)
            (map (fun ch => (k_idx ch, limit_row k (k_min ch) (k_max ch) (k_step ch) false)) (fst x))
            (limit_cols k)
            (map (fun i => mkIrow (i_src i) (Some (i_cur i)) (limit_row k (i_min i) (i_max i) None (i_mod i))) (snd x))
            (sp_scols s) (sp_src s) (sp_sel s))
  end.
