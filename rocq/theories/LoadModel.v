(** Model of reading a DASDAE file with keywords (dascore/io/dasdae/core.py 119-136,
    utils.py 160-198, 216-223), of its scan (core.py 138-162, utils.py 201-213,
    226-240) and of loading a patch from a row of a file's contents
    (core/spool.py 552-573, clients/filespool.py 64-74, utils/pd.py 368-389).

    A keyword's value is a single value or a pair. Times are integers already, so
    to_datetime64 changes nothing. Not modelled: the file's index table, keywords
    that bear the name of a parameter of read or select, arrays and slices as
    values, and NaN as the end of a range. *)
From Verif Require Import Base CoordModel NdModel FrameModel ChunkModel CmModel AttrsModel DasdaeModel.
From Coq Require Import Strings.String Strings.Ascii.
Local Open Scope Z_scope.
Local Open Scope list_scope.

(** ** Keywords *)
Inductive rarg := RVal (v : scal) | RPair (lo hi : scal).
Definition rkw := list (string * rarg).

(** utils.py 18. *)
Definition non_keys : list string := ["file_version"; "file_format"; "path"; "_modified"]%string.
(** utils.py 163-166: is_nullish; [pd.isnull] of a pair is an array. *)
Definition nullish (r : rarg) : bool :=
  match r with RVal ANone | RVal ANull => true | _ => false end.
Definition is_query (e : string * rarg) : bool :=
  negb (mem (fst e) non_keys) && negb (str_prefix "_" (fst e)) && negb (nullish (snd e)).
(** utils.py 216-223: _kwargs_empty. *)
Definition counts (e : string * rarg) : bool :=
  match snd e with RVal ANone => false | _ => true end && negb (mem (fst e) non_keys).
Definition kwargs_empty (kw : rkw) : bool := negb (existsb counts kw).

(** ** The filter on attributes *)

(** Attributes as the only row of a table. *)
Definition scal_cell (v : scal) : cell :=
  match v with ANum z => VInt z | AStr s => VStr s | _ => VNull end.
Definition scal_item (v : scal) : item := match v with ANone => INone | v => ICell (scal_cell v) end.
Definition rarg_query (r : rarg) : qval :=
  match r with
  | RVal (ASeq l) => QColl (map (fun s => ICell (VStr s)) l)
  | RVal v => QVal (scal_cell v)
  | RPair a b => QColl [scal_item a; scal_item b]
  end.
Definition attr_row (a : attrs) : frow :=
  mkRow (map (fun e => (fst e, scal_cell (snd e))) (d_vals (dump a))) false.
Definition is_seq (o : option scal) : bool := match o with Some (ASeq _) => true | _ => false end.

(** utils.py 160-177: _matches_attr_filters. A query on an attribute that holds a
    sequence is not modelled. *)
Definition matches_filters (a : attrs) (kw : rkw) : result bool :=
  match filter is_query kw with
  | [] => Ok true
  | q =>
      if existsb (fun e => is_seq (assoc (fst e) (d_vals (dump a)))) q then Err Unmodelled
      else
        do m <- filter_df (map fst (d_vals (dump a))) [attr_row a] true
                  (map (fun e => (fst e, rarg_query (snd e))) q);
        match m with b :: _ => Ok b | [] => Err IndexError end
  end.

(** ** Selecting while reading *)
Definition bound (v : scal) : result (option Z) :=
  match v with ANone => Ok None | ANum z => Ok (Some z) | _ => Err Unmodelled end.
Definition sel_of (r : rarg) : result selarg :=
  match r with
  | RVal ANone => Ok SelAll
  | RVal (ANum z) => Ok (SelInt z)
  | RVal _ => Err Unmodelled
  | RPair a b => do lo <- bound a; do hi <- bound b; Ok (SelPair lo hi)
  end.
(** utils.py 190-194: keywords that name a coordinate of several dimensions (or of
    none) are left out; CoordManager.select ignores those that name none. *)
Definition selectable (cm : cman) (e : string * rarg) : bool :=
  match assoc (fst e) (cm_dmap cm) with Some ds => zlen ds =? 1 | None => false end.
Definition sel_kwargs (cm : cman) (kw : rkw) : result (list (string * selarg)) :=
  map_result (fun e => do s <- sel_of (snd e); Ok (fst e, s)) (filter (selectable cm) kw).

Section Read.
Context {A : Type}.

(** utils.py 180-198: _read_patch with the attributes already read. *)
Definition read_patch_kw (g : group A) (a : attrs) (kw : rkw) : result (dpatch A) :=
  do dims <- get_dims g;
  do x <- get_coords g dims a;
  let (cm, us) := x in
  match g_data g with
  | None => Err IndexError
  | Some data =>
      match kw with
      | [] => make_patch cm us data a
      | _ =>
          do sel <- sel_kwargs cm kw;
          do y <- cm_select cm data false false (fun c s => c_sel c false false s) sel;
          make_patch (fst y) us (snd y) a
      end
  end.

(** core.py 119-136: read. *)
Definition no_data (p : dpatch A) : bool := size (nd_shape (p_data (dp_patch p))) =? 0.
Definition read_group (kw : rkw) (g : group A) : result (list (dpatch A)) :=
  do a <- get_attrs g;
  do ok <- matches_filters a kw;
  if negb ok then Ok []
  else
    do p <- read_patch_kw g a kw;
    Ok (if no_data p && negb (kwargs_empty kw) then [] else [p]).
Definition dasdae_read_kw (f : file A) (kw : rkw) : result (list (dpatch A)) :=
  do ls <- map_result (fun name => match assoc name f with
                                   | Some g => read_group kw g | None => Err KeyError end)
                      (sort_strs (map fst f));
  Ok (List.concat ls).

(** ** Scanning *)

(** utils.py 226-240: _get_patch_content_from_group. *)
Definition scan_dict (g : group A) : result adict :=
  do d <- fold_left (fun acc key =>
               do d <- acc;
               match assoc key (g_attrs g) with
               | Some v => add_attr d (str_replace "_attrs_" EmptyString key) v
               | None => Err KeyError
               end) (sort_strs (map fst (g_attrs g))) (Ok (mkDict [] None));
  match assoc "_dims"%string (d_vals d) with
  | Some v => Ok (mkDict (assoc_set "dims"%string v (del "_dims"%string (d_vals d))) (d_coords d))
  | None => Err KeyError
  end.
(** utils.py 201-213: _get_contents_from_patch_groups. *)
Definition scan_group (path version : string) (g : group A) : result attrs :=
  do d <- scan_dict g;
  mk_attrs (mkDict (assoc_set "path"%string (AStr path)
                     (assoc_set "file_format"%string (AStr "DASDAE")
                        (assoc_set "file_version"%string (AStr version) (d_vals d)))) (d_coords d)).
Definition dasdae_scan (path version : string) (f : file A) : result (list attrs) :=
  map_result (fun name => match assoc name f with
                          | Some g => scan_group path version g | None => Err KeyError end)
             (sort_strs (map fst f)).
(** io/core.py 670-718: scan_to_df; a row of the contents. *)
Definition contents_row (a : attrs) : sdict := del "history"%string (flat_dump a).

(** ** Loading from a row *)

(** pd.py 368-389: _convert_min_max_in_kwargs. *)
Definition set_end (hi : bool) (v : scal) (r : rarg) : rarg :=
  match r with
  | RPair a b => if hi then RPair a v else RPair v b
  | RVal _ => r
  end.
Definition add_end (m : rkw) (e : string * scal) : rkw :=
  let put (hi : bool) (key : string) :=
    let old := match assoc key m with Some r => r | None => RPair ANone ANone end in
    assoc_set key (set_end hi (snd e) old) m in
  if str_suffix "_min" (fst e) then put false (str_replace "_min" EmptyString (fst e))
  else if str_suffix "_max" (fst e) then put true (str_replace "_max" EmptyString (fst e))
  else m.
Definition whole_key (k : string) : bool := negb (str_suffix "_min" k) && negb (str_suffix "_max" k).
Definition convert_row (row : sdict) : rkw :=
  put_all (fold_left add_end row [])
          (map (fun e => (fst e, RVal (snd e))) (filter (fun e => whole_key (fst e)) row)).

(** clients/filespool.py 64-74: FileSpool._load_patch. *)
Definition load_row (f : file A) (row : sdict) : result (dpatch A) :=
  do ps <- dasdae_read_kw f (convert_row row);
  match ps with p :: _ => Ok p | [] => Err MissingPatchError end.
End Read.
