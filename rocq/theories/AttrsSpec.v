(** Specification vocabulary for attribute merging (C51) and for coordinate
    information among attributes (C56). *)
From Verif Require Import Base FrameModel AttrsModel.
From Coq Require Import Strings.String.
Local Open Scope Z_scope.

(** [k] begins with [c]; [k] contains [w]. *)
Definition starts (c k : string) : Prop := exists r, k = (c ++ r)%string.
Definition contains (w k : string) : Prop := exists a b, k = (a ++ w ++ b)%string.

(** The names an attribute set uses for coordinates and dimensions. *)
Definition names_of (a : attrs) : list string := map fst (a_coords a) ++ dim_tuple a.

(** [k] cannot be taken for information about one of the coordinates [cs]. *)
Definition apart (cs : list string) (k : string) : Prop :=
  ~ contains "_min" k /\ forall c, In c cs -> ~ starts c k /\ k <> ("d_" ++ c)%string.

(** A summary as CoordSummary leaves it: a dtype without a unit in brackets. *)
Definition tidy_summ (s : summ) : Prop := s_dtype s <> EmptyString /\ ~ contains "[" (s_dtype s).

(** An attribute set as PatchAttrs builds it: distinct names, dims given whenever
    there are coordinates, and tidy summaries. *)
Record tidy (a : attrs) : Prop :=
  { t_keys : NoDup (map fst (a_vals a));
    t_coords : NoDup (map fst (a_coords a));
    t_own : ~ In "dims"%string (map fst (a_vals a)) /\ ~ In "coords"%string (map fst (a_vals a));
    t_dims : a_dims a = EmptyString -> a_coords a = [];
    t_names : ~ In "dims"%string (names_of a) /\ ~ In "coords"%string (names_of a);
    t_summ : forall n s, In (n, s) (a_coords a) -> tidy_summ s }.

(** No attribute of any of them can be taken for coordinate information of any. *)
Definition family (l : list attrs) : Prop :=
  (forall a, In a l -> tidy a) /\
  forall a b k, In a l -> In b l -> In k (map fst (a_vals a)) -> apart (names_of b) k.

(** The documented defaults; any other attribute is simply absent. *)
Definition default_of (k : string) : option scal :=
  if existsb (String.eqb k)
       ["data_type"; "data_category"; "instrument_id"; "acquisition_id"; "tag"; "station"; "network"]%string
  then Some (AStr "")
  else if String.eqb k "data_units" then Some ANone
  else if String.eqb k "history" then Some (ASeq [])
  else None.

(** What reading attribute [k] gives: the value set, else the default. *)
Definition value_of (a : attrs) (k : string) : option scal :=
  match find (fun e => String.eqb k (fst e)) (a_vals a) with Some e => Some (snd e) | None => default_of k end.

(** Equal values, none of them missing. *)
Definition agree (u v : option scal) : Prop := u = v /\ u <> Some ANull.
(** Equal when missing values count as None. *)
Definition alike (u v : option scal) : Prop :=
  u = v \/ (u = Some ANull /\ v = Some ANone) \/ (u = Some ANone /\ v = Some ANull).

(** The attribute sets a merge along [name] looks at: those with the coordinate. *)
Definition part (name : string) (l : list attrs) : list attrs :=
  if String.eqb name EmptyString then l
  else filter (fun a => existsb (String.eqb name) (map fst (a_coords a))) l.

(** The coordinates other than [name] (all of them without a name) are the same. *)
Definition same_rest (name : string) (a b : attrs) : Prop :=
  forall n, name = EmptyString \/ n <> name -> assoc n (a_coords a) = assoc n (a_coords b).
(** A summary without missing values. *)
Definition solid (s : summ) : Prop :=
  s_min s <> ANull /\ s_max s <> ANull /\ s_step s <> ANull /\ s_units s <> ANull.

(** The summaries of coordinate [name] hold numbers, and a number or no step. *)
Definition numeric (s : summ) : Prop :=
  (exists z, s_min s = ANum z) /\ (exists z, s_max s = ANum z)
  /\ (s_step s = ANone \/ s_step s = ANull \/ exists z, s_step s = ANum z).

(** The options that leave dims and coordinates alone. *)
Definition plain_drop (drop : list string) : Prop := ~ In "dims"%string drop /\ ~ In "coords"%string drop.
(** The summaries of coordinate [name]. *)
Definition held (name : string) (l : list attrs) : list summ :=
  flat_map (fun a => match assoc name (a_coords a) with Some s => [s] | None => [] end) (part name l).

(** What a merged summary is. *)
Record merged (hs : list summ) (s : summ) : Prop :=
  { m_dtype : forall h, In h hs -> s_dtype h = s_dtype s;
    m_min : exists z, s_min s = ANum z /\ (exists h, In h hs /\ s_min h = ANum z)
                      /\ forall h y, In h hs -> s_min h = ANum y -> z <= y;
    m_max : exists z, s_max s = ANum z /\ (exists h, In h hs /\ s_max h = ANum z)
                      /\ forall h y, In h hs -> s_max h = ANum y -> y <= z;
    m_step : s_step s = ANone \/ exists h, In h hs /\ s_step s = s_step h;
    m_even : forall z, (exists h, In h hs /\ s_step h = ANum z) ->
             (forall h, In h hs -> s_step h = ANone \/ s_step h = ANum z) -> s_step s = ANum z;
    m_uneven : forall g h y z, In g hs -> In h hs -> s_step g = ANum y -> s_step h = ANum z ->
             Z.abs y < 100 * Z.abs (y - z) -> s_step s = ANone;
    m_nullstep : forall h, In h hs -> s_step h = ANull -> s_step s = ANone;
    m_units : forall h, In h hs -> s_units h = ANone \/ s_units h = s_units s;
    m_units_from : s_units s = ANone \/ exists h, In h hs /\ s_units h = s_units s;
    m_solid : solid s }.
(** Two of the summaries have different dtypes, or units that differ or are missing values. *)
Definition clash (hs : list summ) : Prop :=
  exists g h, In g hs /\ In h hs /\
    (s_dtype g <> s_dtype h \/
     (s_units g <> ANone /\ s_units h <> ANone /\ (s_units g <> s_units h \/ s_units g = ANull))).

(** ** What each mode gives *)
(** [r] is [f] without what [drop] names, with [s] as coordinate [name]. *)
Record made (name : string) (drop : list string) (s : summ) (f r : attrs) : Prop :=
  { md_vals : forall k, k <> "dims"%string -> (~ In k drop /\ value_of r k = value_of f k) \/ (In k drop /\ value_of r k = default_of k);
    md_nodup : NoDup (map fst (a_vals r));
    md_dims : a_dims r = a_dims f;
    md_rest : same_rest name r f;
    md_coord : name <> EmptyString -> assoc name (a_coords r) = Some s }.
(** The same up to missing values, what [drop] names, and the coordinate [name]. *)
Record compatible (name : string) (drop : list string) (f m : attrs) : Prop :=
  { c_vals : forall k, k <> "dims"%string -> ~ In k drop -> alike (value_of f k) (value_of m k);
    c_dims : a_dims m = a_dims f;
    c_rest : same_rest name m f }.
(** The same, and the other coordinates have no missing values. *)
Record equal_sets (name : string) (drop : list string) (f m : attrs) : Prop :=
  { e_vals : forall k, k <> "dims"%string -> ~ In k drop -> value_of f k = value_of m k;
    e_dims : a_dims m = a_dims f;
    e_rest : same_rest name m f;
    e_solid : forall n s, n <> name \/ name = EmptyString -> assoc n (a_coords f) = Some s -> solid s }.
(** [f] is the first of the sets, [t] the others. Values that agree are kept, those
    that conflict are dropped; so are dims and, together, all coordinates. *)
Record dropped (name : string) (drop : list string) (s : summ) (f : attrs) (t : list attrs) (r : attrs) : Prop :=
  { dr_keep : forall k, k <> "dims"%string -> ~ In k drop ->
      (forall m, In m t -> agree (value_of f k) (value_of m k)) -> value_of r k = value_of f k;
    dr_gone : forall k m, k <> "dims"%string -> ~ In k drop -> In m t ->
      ~ alike (value_of f k) (value_of m k) -> value_of r k = default_of k;
    dr_named : forall k, k <> "dims"%string -> In k drop -> value_of r k = default_of k;
    dr_either : forall k, k <> "dims"%string -> value_of r k = value_of f k \/ value_of r k = default_of k;
    dr_dims : (forall m, In m t -> a_dims m = a_dims f) -> a_dims r = a_dims f;
    dr_dims_gone : forall m, In m t -> a_dims m <> a_dims f -> a_dims r = str_join "," (map fst (a_coords r));
    dr_coords : (forall m, In m t -> same_rest name m f) ->
      (forall n s, n <> name \/ name = EmptyString -> assoc n (a_coords f) = Some s -> solid s) ->
      same_rest name r f /\ (name <> EmptyString -> assoc name (a_coords r) = Some s);
    dr_coords_gone : forall m, In m t -> ~ same_rest name m f -> a_coords r = [] }.
(** The first value that is not the default is kept. *)
Record first_kept (name : string) (drop : list string) (s : summ) (f : attrs) (t : list attrs) (r : attrs) : Prop :=
  { kf_vals : forall k pre m post, k <> "dims"%string -> ~ In k drop -> f :: t = pre ++ m :: post ->
      (forall a, In a pre -> value_of a k = default_of k) -> value_of m k <> default_of k -> value_of r k = value_of m k;
    kf_default : forall k, k <> "dims"%string -> (forall a, In a (f :: t) -> value_of a k = default_of k) ->
      value_of r k = default_of k;
    kf_named : forall k, k <> "dims"%string -> In k drop -> value_of r k = default_of k;
    kf_dims : forall pre m post, f :: t = pre ++ m :: post -> (forall a, In a pre -> a_dims a = EmptyString) ->
      a_dims m <> EmptyString -> a_dims r = a_dims m;
    kf_coords : a_coords f <> [] ->
      same_rest name r f /\ (name <> EmptyString -> assoc name (a_coords r) = Some s) }.

(** ** Rebuilding and updating (C56) *)
(** Two attribute sets that read the same, with coordinates in the same order. *)
Record same_attrs (a r : attrs) : Prop :=
  { sa_vals : forall k, k <> "dims"%string -> value_of r k = value_of a k;
    sa_dims : a_dims r = a_dims a;
    sa_coords : a_coords r = a_coords a }.
(** [k] does not mention a summary field after an underscore. *)
Definition quiet (k : string) : Prop :=
  forall f, In f ["dtype"; "min"; "max"; "step"; "units"]%string -> ~ contains ("_" ++ f) k.
(** No coordinate or dimension name begins the name of an attribute field. *)
Definition clear_names (a : attrs) : Prop :=
  forall k, In k ["data_type"; "data_category"; "data_units"; "instrument_id"; "acquisition_id"; "tag"; "station";
                  "network"; "history"]%string -> apart (names_of a) k.
(** A summary with one field replaced. *)
Definition with_field (s : summ) (f : string) (v : scal) : summ :=
  if String.eqb f "min" then mkSumm (s_dtype s) v (s_max s) (s_step s) (s_units s)
  else if String.eqb f "max" then mkSumm (s_dtype s) (s_min s) v (s_step s) (s_units s)
  else if String.eqb f "step" then mkSumm (s_dtype s) (s_min s) (s_max s) v (s_units s)
  else if String.eqb f "units" then mkSumm (s_dtype s) (s_min s) (s_max s) (s_step s) v
  else s.
(** Dimension names the flat form can carry: no underscore, none beginning another. *)
Definition flat_names (ds : list string) : Prop :=
  NoDup ds /\ (forall d, In d ds -> d <> EmptyString /\ ~ contains "_" d /\ d <> "d"%string) /\
  forall d e, In d ds -> In e ds -> starts d e -> d = e.
(** The flat form of a summary: an absent step of a time or a float coordinate is missing (NaT or NaN). *)
Definition flat_summ (s : summ) : summ :=
  mkSumm (s_dtype s) (s_min s) (s_max s)
         (match s_step s with
          | ANone => if existsb (String.eqb (s_dtype s)) ["datetime64"; "timedelta64"]%string
                        || String.eqb (substring 0 5 (s_dtype s)) "float" then ANull else ANone
          | v => v
          end) (s_units s).
(** [r] is [a] with [s] as coordinate [n] and nothing else changed. *)
Record only_coord (a : attrs) (n : string) (s : summ) (r : attrs) : Prop :=
  { oc_vals : forall k, k <> "dims"%string -> value_of r k = value_of a k;
    oc_dims : a_dims r = a_dims a;
    oc_names : map fst (a_coords r) = map fst (a_coords a);
    oc_coord : assoc n (a_coords r) = Some s;
    oc_rest : forall m, m <> n -> assoc m (a_coords r) = assoc m (a_coords a) }.
(** A field of a summary by name. *)
Definition field_of (s : summ) (f : string) : scal :=
  if String.eqb f "dtype" then AStr (s_dtype s) else if String.eqb f "min" then s_min s
  else if String.eqb f "max" then s_max s else if String.eqb f "step" then s_step s else s_units s.
