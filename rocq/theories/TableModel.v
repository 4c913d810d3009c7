(** Model of patch_to_dataframe and dataframe_to_patch (dascore/utils/pd.py 540-606).

    Simplifications: labels are integers of one kind (see CoordModel.v) and partial
    coordinates, whose labels are NaN, are left out; of the attributes only the dimensions
    are kept, as a pair of names. *)
From Verif Require Import Base CoordModel NdModel FrameModel CmModel InterpModel.
From Coq Require Import Strings.String.
Local Open Scope Z_scope.
Local Open Scope list_scope.

(** A dataframe: name and labels of the index, name and labels of the columns, values. *)
Record table A := mkTable
  { tb_index : option string; tb_rows : kind * list Z;
    tb_columns : option string; tb_cols : kind * list Z;
    tb_data : nd A }.
Arguments mkTable {A}. Arguments tb_index {A}. Arguments tb_rows {A}. Arguments tb_columns {A}.
Arguments tb_cols {A}. Arguments tb_data {A}.

Definition labels_of (cm : cman) (d : string) : result (kind * list Z) :=
  match assoc d (cm_coords cm) with
  | Some (M1 c) => match kind_of c with Some k => Ok (k, c_ints c) | None => Err Unmodelled end
  | Some _ => Err Unmodelled
  | None => Err KeyError
  end.
(** pd.py 554-568. *)
Definition to_table {A} (p : patch A) : result (table A) :=
  match cm_dims (p_cm p) with
  | [a; b] =>
      do rows <- labels_of (p_cm p) a;
      do cols <- labels_of (p_cm p) b;
      Ok (mkTable (Some a) rows (Some b) cols (p_data p))
  | _ => Err AssertionError
  end.

Definition no_name (x : option string) : bool :=
  match x with None => true | Some s => String.eqb s EmptyString end.
(** pd.py 588-600. The dimensions of the attributes are [None] without attributes,
    [Some None] if attributes have no dimensions. *)
Definition table_names {A} (t : table A) (attrs : option (option (string * string))) : result (string * string) :=
  let own := (tb_index t, tb_columns t) in
  let dims :=
    match attrs with
    | Some d =>
        if no_name (fst own) || no_name (snd own)
        then match d with Some (x, y) => (Some x, Some y) | None => (None, None) end
        else own
    | None => own
    end in
  if no_name (fst dims) || no_name (snd dims) then Err ValueError
  else match dims with (Some x, Some y) => Ok (x, y) | _ => Err ValueError end.
(** pd.py 602-606. Names that are the same make one key of the coordinates and attributes
    of other dimensions are checked by the patch; both are left out. *)
Definition of_table {A} (t : table A) (attrs : option (option (string * string))) : result (patch A) :=
  do d <- table_names t attrs;
  if String.eqb (fst d) (snd d) then Err Unmodelled
  else if match attrs with Some (Some (x, y)) => negb (String.eqb x (fst d) && String.eqb y (snd d)) | _ => false end then Err Unmodelled
  else
    do cm <- get_cm [(fst d, KSimple (VArr (fst (tb_rows t)) (snd (tb_rows t)))); (snd d, KSimple (VArr (fst (tb_cols t)) (snd (tb_cols t))))]
               (Some [fst d; snd d]) (Some (nd_shape (tb_data t)));
    new_patch cm (tb_data t).
