(** Specification vocabulary for reading a DASDAE file with keywords (C61) and for
    loading from a row of its contents (C62). *)
From Verif Require Import Base CoordModel CoordSpec NdModel NdSpec FrameModel FrameSpec ChunkModel CmModel CmSpec AttrsModel AttrsSpec
  DasdaeModel DasdaeSpec LoadModel.
From Coq Require Import Strings.String Strings.Ascii.
Local Open Scope Z_scope.
Local Open Scope list_scope.

(** ** Keywords as conditions on attributes *)

(** Keywords that never filter: what spools pass along, private names, and missing
    values. *)
Definition not_filter (k : string) (r : rarg) : Prop :=
  In k ["file_version"; "file_format"; "path"; "_modified"]%string \/ (exists s, k = ("_" ++ s)%string) \/
  r = RVal ANone \/ r = RVal ANull.

Definition attr_value (a : attrs) (k : string) : option scal :=
  if String.eqb k "dims" then Some (AStr (a_dims a)) else value_of a k.

(** What the value of a keyword asks of the attribute with its name. Names that are
    no attribute ask nothing. *)
Definition attr_answers (a : attrs) (k : string) (r : rarg) : Prop :=
  match attr_value a k, r with
  | None, _ => True
  | Some (AStr s), RVal (AStr pat) => Matches pat s
  | Some (AStr s), RVal (ASeq l) => In s l
  | Some (AStr s), RPair (AStr x) (AStr y) => s = x \/ s = y
  | Some (ANum z), RVal (ANum y) => z = y
  | Some (ANum z), RPair (ANum x) (ANum y) => z = x \/ z = y
  | _, _ => False
  end.
(** The questions covered here. *)
Definition attr_askable (a : attrs) (k : string) (r : rarg) : Prop :=
  match attr_value a k, r with
  | None, _ => (forall b, k <> (b ++ "_min")%string /\ k <> (b ++ "_max")%string) /\
               (attr_value a (k ++ "_min") = None \/ attr_value a (k ++ "_max") = None)
  | Some (AStr _), RVal (AStr pat) => ~ contains_char "[" pat
  | Some (AStr _), RVal (ASeq _) | Some (AStr _), RVal (ANum _) | Some (AStr _), RPair (AStr _) (AStr _) => True
  | Some (ANum _), RVal (ANum _) | Some (ANum _), RPair (ANum _) (ANum _) => True
  | _, _ => False
  end.

(** ** Keywords as ranges of coordinates *)
Definition limit (v : scal) (o : option Z) : Prop :=
  (v = ANone /\ o = None) \/ (exists z, v = ANum z /\ o = Some z).
Definition range_of (c : coord) (r : rarg) (ps : list Z) : Prop :=
  match r with
  | RVal ANone => ps = zrange (c_len c)
  | RPair lo hi => exists l h, limit lo l /\ limit hi h /\ asks_values c false l h ps
  | _ => False
  end.

Section Spec.
Context {A : Type}.
Implicit Types p q : dpatch A.

Definition answers (kw : rkw) p : Prop :=
  forall k r, In (k, r) kw -> ~ not_filter k r -> attr_answers (dp_attrs p) k r.
Definition can_answer (kw : rkw) p : Prop :=
  forall k r, In (k, r) kw -> ~ not_filter k r -> attr_askable (dp_attrs p) k r.

(** The keyword names a coordinate of one dimension. *)
Definition ranges_over p (n d : string) : Prop := assoc n (cm_dmap (dp_cm p)) = Some [d].
(** [names] are the coordinates of [p] that the keywords restrict. *)
Definition restricted (kw : rkw) p (names : list string) : Prop :=
  forall n, In n names <-> In n (map fst kw) /\ exists d, ranges_over p n d.
(** [q] is [p] restricted by the keywords to the positions they ask for; all other
    positions and coordinates are kept, and so are units and attributes. *)
Definition selected (kw : rkw) p q : Prop :=
  exists psf names pick own,
    restricted kw p names /\
    (forall n r c, In (n, r) kw -> In n names -> assoc n (cm_coords (dp_cm p)) = Some (M1 c) -> range_of c r (psf n)) /\
    CmSpec.aligned (dp_patch p) (dp_patch q) pick own /\ picks_kw (dp_cm p) psf names pick own /\
    dp_units q = dp_units p /\ a_vals (dp_attrs q) = a_vals (dp_attrs p) /\ a_dims (dp_attrs q) = a_dims (dp_attrs p) /\
    a_coords (dp_attrs q) = cm_sums (dp_cm q) (dp_units q).
(** Ranges that can be asked for: one keyword per dimension, and numbers. *)
Record can_select (kw : rkw) p : Prop :=
  { cs_plain : plain_names (dp_cm p);
    cs_keys : NoDup (map fst kw);
    cs_one : forall n m d, In n (map fst kw) -> In m (map fst kw) -> ranges_over p n d -> ranges_over p m d -> n = m;
    cs_range : forall n r d c, In (n, r) kw -> ranges_over p n d -> assoc n (cm_coords (dp_cm p)) = Some (M1 c) ->
      exists ps, range_of c r ps }.

(** Some keyword that counts is not None. *)
Definition effective (kw : rkw) : Prop :=
  exists k r, In (k, r) kw /\ r <> RVal ANone /\ ~ In k ["file_version"; "file_format"; "path"; "_modified"]%string.
Definition empty p : Prop := In 0 (nd_shape (p_data (dp_patch p))).

(** The patches with the asked attributes, in order, restricted to the asked ranges;
    what is empty then is left out. *)
Inductive kept (kw : rkw) : list (dpatch A) -> list (dpatch A) -> Prop :=
| kept_nil : kept kw [] []
| kept_other p ps qs : ~ answers kw p -> kept kw ps qs -> kept kw (p :: ps) qs
| kept_empty p q ps qs : answers kw p -> selected kw p q -> empty q -> effective kw ->
    kept kw ps qs -> kept kw (p :: ps) qs
| kept_some p q ps qs : answers kw p -> selected kw p q -> ~ (empty q /\ effective kw) ->
    kept kw ps qs -> kept kw (p :: ps) (q :: qs).
End Spec.

(** ** Scanning *)
Section ScanSpec.
Context {A : Type}.
Implicit Types p q : dpatch A.

(** Names the scan adds do not clash with the patch's own. *)
Record scannable p : Prop :=
  { sc_where : forall k, In k ["path"; "file_format"; "file_version"]%string -> apart (names_of (dp_attrs p)) k;
    sc_cdims : forall n, In n (map fst (cm_coords (dp_cm p))) ->
      apart (names_of (dp_attrs p)) ("_cdims_" ++ n) /\ ~ contains "_attrs_" ("_cdims_" ++ n);
    sc_keys : forall k, In k (map fst (a_vals (dp_attrs p))) ->
      k <> "_dims"%string /\ forall n, In n (map fst (cm_coords (dp_cm p))) -> k <> ("_cdims_" ++ n)%string }.
(** What a scan tells of [p]: its attributes, dims and coordinate summaries, the
    dimensions of each coordinate, and where it is. *)
Record describes p (path version : string) (s : attrs) : Prop :=
  { de_dims : a_dims s = a_dims (dp_attrs p);
    de_coords : a_coords s = a_coords (dp_attrs p);
    de_path : value_of s "path" = Some (AStr path);
    de_format : value_of s "file_format" = Some (AStr "DASDAE");
    de_version : value_of s "file_version" = Some (AStr version);
    de_cdims : forall n ds, In n (map fst (cm_coords (dp_cm p))) -> assoc n (cm_dmap (dp_cm p)) = Some ds ->
      value_of s ("_cdims_" ++ n) = Some (AStr (String.concat "," ds));
    de_vals : forall k, ~ In k ["path"; "file_format"; "file_version"; "dims"]%string ->
      (forall n, In n (map fst (cm_coords (dp_cm p))) -> k <> ("_cdims_" ++ n)%string) ->
      value_of s k = value_of (dp_attrs p) k }.
End ScanSpec.

(** ** Loading from the rows of the contents *)
Section LoadSpec.
Context {A : Type}.
Implicit Types p q r : dpatch A.

(** Names that are never looked at when loading. *)
Definition exempt (k : string) : Prop :=
  In k ["file_version"; "file_format"; "path"; "_modified"; "history"]%string \/ exists s, k = ("_" ++ s)%string.
Definition labels_of (m : mcoord) : list Z :=
  match m with M1 c => c_ints c | MN _ a => nd_flat a | MNP _ => [] end.
(** The value of one patch's attribute can be asked of another's. *)
Definition comparable (x : scal) (o : option scal) : Prop :=
  match x, o with
  | ANone, _ | ANull, _ | _, None => True
  | AStr pat, Some (AStr _) => ~ contains_char "[" pat
  | ANum _, Some (ANum _) | ANum _, Some (AStr _) => True
  | _, _ => False
  end.
(** Coordinates have labels, names that cannot be mistaken, and each dimension only
    one of them; attribute names do not look like the ends of a coordinate. *)
Record row_plain p : Prop :=
  { rp_names : forall n, In n (map fst (cm_coords (dp_cm p))) -> ~ contains "_" n /\ n <> "min"%string /\ n <> "max"%string;
    rp_keys : forall k, attr_value (dp_attrs p) k <> None -> forall b, k <> (b ++ "_min")%string /\ k <> (b ++ "_max")%string;
    rp_plain : plain_names (dp_cm p);
    rp_one : forall n d, ranges_over p n d -> n = d;
    rp_labels : forall n m, assoc n (cm_coords (dp_cm p)) = Some m -> inferred m /\ ~ placeholder m /\ labels_of m <> [];
    rp_step : forall n g, assoc n (cm_coords (dp_cm p)) = Some (M1 (CRange g)) -> Z.abs (r_step g) < 20000000000 }.
(** The row of [p] can be asked of [r]. *)
Record row_fits p r : Prop :=
  { rf_names : forall n k, In n (map fst (cm_coords (dp_cm r))) ->
      attr_value (dp_attrs p) k <> None \/ In k ["path"; "file_format"; "file_version"]%string -> ~ starts n k;
    rf_values : forall k x, attr_value (dp_attrs p) k = Some x -> ~ exempt k -> comparable x (attr_value (dp_attrs r) k) }.
(** [r] is not [p]: an attribute of [p] asks something else, or their ranges along
    some dimension have nothing in common: every label of [r] lies before or after all
    those of [p]. *)
Definition other_than p r : Prop :=
  (exists k x, attr_value (dp_attrs p) k = Some x /\ ~ exempt k /\ x <> ANone /\ x <> ANull /\
     ~ attr_answers (dp_attrs r) k (RVal x)) \/
  (exists d m c, assoc d (cm_coords (dp_cm p)) = Some m /\ In d (cm_dims (dp_cm r)) /\
     assoc d (cm_coords (dp_cm r)) = Some (M1 c) /\
     forall y, In y (c_ints c) -> (forall x, In x (labels_of m) -> y < x) \/ (forall x, In x (labels_of m) -> x < y)).

(** [q] is [p] with its coordinates inferred anew from the same labels. *)
Record loaded p q : Prop :=
  { lo_data : p_data (dp_patch q) = p_data (dp_patch p);
    lo_dims : cm_dims (dp_cm q) = cm_dims (dp_cm p);
    lo_dmap : forall n, assoc n (cm_dmap (dp_cm q)) = assoc n (cm_dmap (dp_cm p));
    lo_coords : forall n, match assoc n (cm_coords (dp_cm p)), assoc n (cm_coords (dp_cm q)) with
                          | Some (M1 c), Some (M1 c') => represents c' (c_ints c)
                          | Some m, Some m' => m' = m
                          | None, None => True | _, _ => False end;
    lo_units : forall n, In n (map fst (cm_coords (dp_cm p))) -> unit_in (dp_units q) n = unit_in (dp_units p) n;
    lo_vals : forall k, k <> "dims"%string -> value_of (dp_attrs q) k = value_of (dp_attrs p) k;
    lo_adims : a_dims (dp_attrs q) = a_dims (dp_attrs p) }.
End LoadSpec.
