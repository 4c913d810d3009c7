(** Model of the DASDAE format: dascore/io/dasdae/core.py (write, read) and
    dascore/io/dasdae/utils.py, with get_patch_names (dascore/utils/patch.py
    478-592) and the part of Patch.__init__ (dascore/core/patch.py 86-122) that
    reading runs.

    A file is the list of the groups under /waveforms. HDF5 and PyTables are
    trusted to give back the values stored in attributes and arrays; listing
    children or attributes gives them sorted by name. Times are stored as integers
    with a flag, which is the kind kept with the array. Not modelled: the file's
    index table, read with selections, and write errors, which leave a file partly
    written. A file is written as a whole or not at all here. *)
From Verif Require Import Base CoordModel NdModel FrameModel ChunkModel CmModel AttrsModel.
From Coq Require Import Strings.String Strings.Ascii.
Local Open Scope Z_scope.
Local Open Scope list_scope.

(** ** Patches with attributes *)

(** A patch with the units of its coordinates (a missing entry is None) and its
    attributes. *)
Record dpatch (A : Type) := mkD
  { dp_patch : patch A; dp_units : list (string * scal); dp_attrs : attrs }.
Arguments mkD {A} dp_patch dp_units dp_attrs.
Arguments dp_patch {A} d.
Arguments dp_units {A} d.
Arguments dp_attrs {A} d.
Definition dp_cm {A} (p : dpatch A) : cman := p_cm (dp_patch p).
Definition unit_in (us : list (string * scal)) (n : string) : scal :=
  match assoc n us with Some u => u | None => ANone end.

(** coords.py 798-806, 1131-1139: to_summary. The dtype of a partial coordinate is
    taken as float64. *)
Definition kind_dtype (k : kind) : string :=
  match k with KInt => "int64" | KTime => "datetime64" end%string.
Definition opt_num (o : option Z) : scal := match o with Some z => ANum z | None => ANull end.
Definition m_summ (m : mcoord) (u : scal) : summ :=
  match m with
  | M1 (CPart _) | MNP _ => mkSumm "float64" ANull ANull ANull ANone
  | M1 c => mkSumm (kind_dtype (c_kind c)) (opt_num (c_min c)) (opt_num (c_max c))
                   (match c with CRange r => ANum (r_step r) | _ => ANone end) u
  | MN k a => mkSumm (kind_dtype k) (opt_num (list_min (nd_flat a))) (opt_num (list_max (nd_flat a))) ANone u
  end.
(** coordmanager.py 1065-1071: to_summary_dict. *)
Definition cm_sums (cm : cman) (us : list (string * scal)) : list (string * summ) :=
  map (fun e => (fst e, m_summ (snd e) (unit_in us (fst e)))) (cm_coords cm).

(** ** The file *)

(** A stored array: the values of a 1-D or an N-D coordinate, or an array of
    missing values of some shape. *)
Inductive sarray := A1 (k : kind) (v : list Z) | AN (k : kind) (a : nd Z) | ANul (s : list Z).
(** A stored attribute; that of the coordinate summaries is a dict of dicts. *)
Inductive sattr := SVal (v : scal) | SCoords (c : list (string * sdict)).
Record group (A : Type) := mkG
  { g_attrs : list (string * sattr); g_arrays : list (string * sarray); g_data : option (nd A) }.
Arguments mkG {A} g_attrs g_arrays g_data.
Arguments g_attrs {A} g.
Arguments g_arrays {A} g.
Arguments g_data {A} g.
Definition file (A : Type) := list (string * group A).

(** Names PyTables refuses for a node; the prefixes it reserves ([_v_] and such)
    are not modelled. *)
Definition bad_name (n : string) : bool :=
  String.eqb n EmptyString || String.eqb n "." || str_contains "/" n.

(** ** Writing *)

(** The array of a coordinate's values (coords.py 1357-1374, 1554, 1073-1078). *)
Definition m_stored (m : mcoord) : sarray :=
  match m with
  | M1 (CPart n) => ANul [n]
  | M1 c => A1 (c_kind c) (c_ints c)
  | MN k a => AN k a
  | MNP s => ANul s
  end.

Section Write.
Context {A : Type}.

(** utils.py 54-62: _save_attrs_and_dims. *)
Definition attr_entries (p : dpatch A) : list (string * sattr) :=
  let d := dump_set (dp_attrs p) in
  map (fun e => ("_attrs_" ++ fst e, SVal (snd e))%string) (d_vals d)
  ++ match d_coords d with Some c => [("_attrs_coords"%string, SCoords (coval_dict c))] | None => [] end
  ++ [("_dims"%string, SVal (AStr (str_join "," (cm_dims (dp_cm p)))))].

(** utils.py 78-90: _save_coords: the arrays, and the attributes with their dims. *)
Definition coord_arrays (p : dpatch A) : list (string * sarray) :=
  map (fun e => ("_coord_" ++ fst e, m_stored (snd e))%string) (cm_coords (dp_cm p)).
Definition coord_dims (p : dpatch A) : result (list (string * sattr)) :=
  map_result (fun e => match assoc (fst e) (cm_dmap (dp_cm p)) with
                       | Some ds => Ok ("_cdims_" ++ fst e, SVal (AStr (str_join "," ds)))%string
                       | None => Err KeyError
                       end) (cm_coords (dp_cm p)).

Definition put_all {V} (new old : list (string * V)) : list (string * V) :=
  fold_left (fun m e => assoc_set (fst e) (snd e) m) new old.

(** utils.py 25-41, 93-100: _save_patch into a new or an existing group: what is
    there already stays unless it is written again. *)
Definition save_patch (p : dpatch A) (name : string) (f : file A) : result (file A) :=
  if bad_name name then Err ValueError
  else
    let g := match assoc name f with Some g => g | None => mkG [] [] None end in
    do cd <- coord_dims p;
    if existsb (fun e => bad_name (fst e)) (coord_arrays p) then Err ValueError
    else
      let data := match nd_shape (p_data (dp_patch p)) with
                  | [] => g_data g
                  | _ => Some (p_data (dp_patch p))
                  end in
      Ok (assoc_set name
            (mkG (put_all (attr_entries p ++ cd) (g_attrs g))
                 (put_all (coord_arrays p) (g_arrays g)) data) f).

Fixpoint save_all (l : list (string * dpatch A)) (f : file A) : result (file A) :=
  match l with
  | [] => Ok f
  | (name, p) :: t => do f' <- save_patch p name f; save_all t f'
  end.
End Write.

(** ** Names (utils/patch.py 478-592) with the default arguments *)
Section Names.
(** What pandas prints for a column that does not hold text only (missing entries
    are [ANull]), and whether it takes a column for times. *)
Variable show : list scal -> list string.
Variable times : list scal -> bool.

Definition is_text (v : scal) : bool := match v with AStr _ | ANull => true | _ => false end.
Definition text_or (d : string) (v : scal) : string := match v with AStr s => s | _ => d end.
Definition column (rows : list sdict) (c : string) : list scal := map (get_or ANull c) rows.
Definition has_column (rows : list sdict) (c : string) : bool := existsb (has_key c) rows.

(** 534-541: _format_time_column. *)
Definition format_time (s : string) : string :=
  let s := hd EmptyString (str_split "."%char s) in
  str_replace " " "T" (str_replace "-" "_" (str_replace ":" "_" s)).
(** [ser.astype(str)] *)
Definition plain_text (col : list scal) : list string :=
  if forallb is_text col then map (text_or "nan") col else show col.
(** 587-588: the text of a field. *)
Definition field_text (col : list scal) : list string :=
  if forallb is_text col then map (text_or EmptyString) col
  else if times col then map format_time (show col)
  else show (map (fun v => match v with ANull => AStr EmptyString | _ => v end) col).
(** 551-559: _get_filename with strip_extension. *)
Definition file_stem (s : string) : string :=
  hd EmptyString (str_split "."%char (last (str_split "/"%char s) EmptyString)).

Definition name_fields : list string := ["network"; "station"; "tag"; "time_min"; "time_max"]%string.
Definition patch_names (rows : list sdict) : result (list string) :=
  match rows with
  | [] => Ok []
  | _ =>
      if has_column rows "name" then Ok (plain_text (column rows "name"))
      else if has_column rows "path" then Ok (map file_stem (plain_text (column rows "path")))
      else
        let fields := filter (has_column rows) name_fields in
        match fields with
        | [] => Err IndexError
        | _ =>
            let cols := map (fun c => field_text (column rows c)) fields in
            Ok (map (fun i => "DAS___" ++ str_join "__" (map (fun c => nth i c EmptyString) cols))%string
                    (seq 0 (List.length rows)))
        end
  end.

(** core.py 52-88: write. [rows] is the contents dataframe of a spool; for patches
    in memory it holds their flat dumps (io/core.py 670-718). *)
Definition dasdae_write {A} (rows : list sdict) (ps : list (dpatch A)) (f : file A) : result (file A) :=
  do names <- patch_names rows;
  save_all (combine names ps) f.
Definition memory_rows {A} (ps : list (dpatch A)) : list sdict :=
  map (fun p => flat_dump (dp_attrs p)) ps.
End Names.

(** ** Reading *)
Section Read.
Context {A : Type}.

(** PyTables lists attributes and children by name. *)
Definition keys_with {V} (prefix : string) (l : list (string * V)) : list string :=
  filter (str_prefix prefix) (sort_strs (map fst l)).

(** utils.py 106-119: _get_attrs. *)
Definition add_attr (d : adict) (k : string) (v : sattr) : result adict :=
  match v with
  | SVal v => if String.eqb k "coords" then Err Unmodelled
              else Ok (mkDict (assoc_set k v (d_vals d)) (d_coords d))
  | SCoords c => if String.eqb k "coords" then Ok (mkDict (d_vals d) (Some (CDict c)))
                 else Err Unmodelled
  end.
Definition get_attr_dict (g : group A) : result adict :=
  fold_left (fun acc key =>
               do d <- acc;
               match assoc key (g_attrs g) with
               | Some v => add_attr d (str_replace "_attrs_" EmptyString key) v
               | None => Err KeyError
               end) (keys_with "_attrs_" (g_attrs g)) (Ok (mkDict [] None)).
Definition get_attrs (g : group A) : result attrs :=
  do d <- get_attr_dict g; mk_attrs d.

(** [getattr(attrs, name, None)] *)
Definition attr_or_none (a : attrs) (k : string) : result scal :=
  match attr_read a k with
  | Ok v => Ok v
  | Err AttributeError => Ok ANone
  | Err e => Err e
  end.
Definition is_null (v : scal) : bool := match v with ANone | ANull => true | _ => false end.

(** coords.py 1791-1832: get_coord(data=array, step=step). An array holding one
    missing value becomes an array coordinate with that value, which is not
    modelled, nor is a step together with an N-D array of one row. *)
Definition read_coord (s : sarray) (step : scal) : result mcoord :=
  match s with
  | A1 k [x] =>
      match step with
      | ANone | ANull => do c <- get_coord_data k [x]; Ok (M1 c)
      | ANum z => do c <- get_coord_one k x z; Ok (M1 c)
      | _ => Err Unmodelled
      end
  | A1 k v => do c <- get_coord_data k v; Ok (M1 c)
  | AN k a =>
      match nd_shape a with
      | [] => Err TypeError
      | n :: _ => if (n =? 1) && negb (size (nd_shape a) =? 0) && negb (is_null step)
                  then Err Unmodelled else Ok (get_coord_nd k a)
      end
  | ANul [] => Err TypeError
  | ANul [n] => if n =? 1 then Err Unmodelled else Ok (M1 (CPart n))
  | ANul (n :: s) => if (n =? 1) && negb (size (n :: s) =? 0) then Err Unmodelled else Ok (MNP (n :: s))
  end.

(** utils.py 133-157: _get_coords; coordinates come with their units. *)
Definition load_coord (g : group A) (a : attrs) (key : string) : result (string * (mcoord * scal)) :=
  let name := str_replace "_coord_" EmptyString key in
  match assoc key (g_arrays g) with
  | None => Err KeyError
  | Some s =>
      do u <- attr_or_none a (name ++ "_units")%string;
      do st <- attr_or_none a (name ++ "_step")%string;
      do m <- read_coord s st;
      Ok (name, (m, u))
  end.
Definition load_coords (g : group A) (a : attrs) : result (list (string * (mcoord * scal))) :=
  do l <- map_result (load_coord g a) (keys_with "_coord_" (g_arrays g));
  Ok (put_all l []).
Definition load_dims (g : group A) (cs : list (string * (mcoord * scal))) (key : string)
  : result (string * kval) :=
  let name := str_replace "_cdims_" EmptyString key in
  match assoc key (g_attrs g) with
  | Some (SVal (AStr v)) =>
      match assoc name cs with
      | Some (m, _) => Ok (name, KTuple (str_split ","%char v) (VCoord m))
      | None => Err AssertionError
      end
  | _ => Err AttributeError
  end.
Definition get_coords (g : group A) (dims : list string) (a : attrs)
  : result (cman * list (string * scal)) :=
  do cs <- load_coords g a;
  do kw <- map_result (load_dims g cs) (keys_with "_cdims" (g_attrs g));
  do cm <- get_cm (put_all kw []) (Some dims) None;
  Ok (cm, map (fun e => (fst e, snd (snd e))) cs).

(** utils.py 160-167: _get_dims. *)
Definition get_dims (g : group A) : result (list string) :=
  match assoc "_dims"%string (g_attrs g) with
  | Some (SVal (AStr s)) => if String.eqb s EmptyString then Ok [] else Ok (str_split ","%char s)
  | _ => Err KeyError
  end.

(** core/patch.py 104-122: the patch from a coordinate manager and attributes that
    are a PatchAttrs. *)
Definition make_patch (cm : cman) (us : list (string * scal)) (data : nd A) (a : attrs) : result (dpatch A) :=
  do a <- attrs_update a (mkDict [] (Some (CMan (cm_dims cm)
            (map (fun e => (fst e, summ_dict (snd e))) (cm_sums cm us)))));
  if strs_eqb (cm_dims cm) (dim_tuple a)
  then do p <- new_patch cm data; Ok (mkD p us a)
  else Err PatchCoordinateError.

(** utils.py 189-208: _read_patch without selections. *)
Definition read_patch (g : group A) : result (dpatch A) :=
  do a <- get_attrs g;
  do dims <- get_dims g;
  do x <- get_coords g dims a;
  let (cm, us) := x in
  match g_data g with
  | None => Err IndexError
  | Some data => make_patch cm us data a
  end.

(** core.py 110-126: read. *)
Definition dasdae_read (f : file A) : result (list (dpatch A)) :=
  map_result (fun name => match assoc name f with
                          | Some g => read_patch g | None => Err KeyError end)
             (sort_strs (map fst f)).
End Read.
