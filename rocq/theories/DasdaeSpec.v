(** Specification vocabulary for DASDAE files (C44). *)
From Verif Require Import Base CoordModel CoordSpec NdModel NdSpec FrameModel ChunkModel CmModel CmSpec AttrsModel AttrsSpec DasdaeModel.
From Coq Require Import Strings.String Strings.Ascii Sorting.Sorted.
Local Open Scope Z_scope.
Local Open Scope list_scope.

(** A coordinate name the attributes can tell the units and the step of. *)
Definition simple_name (n : string) : Prop := ~ contains "_" n /\ n <> "d"%string.
(** A range of one sample: its step cannot be told from its values. *)
Definition one_sample (m : mcoord) : Prop := exists r, m = M1 (CRange r) /\ r_len r = 1.
(** Placeholder coordinates, whose values are all missing. *)
Definition placeholder (m : mcoord) : Prop :=
  match m with M1 (CPart _) | MNP _ => True | _ => False end.

Section Spec.
Context {A : Type}.
Implicit Types p q : dpatch A.

(** What can be stored. The first group of fields holds for patches as the library
    builds them; the second excludes what the format cannot hold. *)
Record storable p : Prop :=
  { st_patch : wf_patch (dp_patch p);
    st_family : family [dp_attrs p];
    st_clear : clear_names (dp_attrs p);
    st_some : a_dims (dp_attrs p) <> EmptyString;
    st_dims : dim_tuple (dp_attrs p) = cm_dims (dp_cm p);
    st_sums : a_coords (dp_attrs p) = cm_sums (dp_cm p) (dp_units p);
    st_owned : forall n ds, assoc n (cm_dmap (dp_cm p)) = Some ds -> ds <> [];
    st_keys : forall k, In k (map fst (a_vals (dp_attrs p))) -> ~ contains "_attrs_" k;
    st_names : forall n, In n (map fst (cm_coords (dp_cm p))) ->
      ~ contains "_coord_" n /\ ~ contains "_cdims_" n /\ ~ contains "/" n;
    st_told : forall n m, assoc n (cm_coords (dp_cm p)) = Some m ->
      simple_name n \/ (contains "_" n /\ unit_in (dp_units p) n = ANone /\ ~ one_sample m);
    st_part : forall n m, assoc n (cm_coords (dp_cm p)) = Some m -> placeholder m ->
      unit_in (dp_units p) n = ANone /\ nth_error (m_shape m) 0 <> Some 1 }.
Definition node_name (n : string) : Prop := n <> EmptyString /\ n <> "."%string /\ ~ contains "/" n.

(** A coordinate inferred anew from the values of [m]. *)
Definition reread (m m' : mcoord) : Prop :=
  match m with
  | M1 (CPart _) | MN _ _ | MNP _ => m' = m
  | M1 c => exists c', m' = M1 c' /\ c_kind c' = c_kind c /\ concrete c' /\ represents c' (c_ints c)
  end.
(** A coordinate as get_coord makes it; ranges and placeholders are. *)
Definition inferred (m : mcoord) : Prop :=
  match m with
  | M1 (CMono _ _ as c) | M1 (CArr _ _ as c) => exists k v, get_coord_data k v = Ok c
  | _ => True
  end.

(** [p'] is [p] with its coordinates inferred anew; attributes agree with them. *)
Record read_back (p p' : dpatch A) : Prop :=
  { rb_wf : wf_patch (dp_patch p');
    rb_data : p_data (dp_patch p') = p_data (dp_patch p);
    rb_dims : cm_dims (dp_cm p') = cm_dims (dp_cm p);
    rb_dmap : forall n, assoc n (cm_dmap (dp_cm p')) = assoc n (cm_dmap (dp_cm p));
    rb_coords : forall n, match assoc n (cm_coords (dp_cm p)), assoc n (cm_coords (dp_cm p')) with
                          | Some m, Some m' => reread m m' | None, None => True | _, _ => False end;
    rb_units : forall n, In n (map fst (cm_coords (dp_cm p))) ->
      unit_in (dp_units p') n = unit_in (dp_units p) n;
    rb_vals : forall k, k <> "dims"%string -> value_of (dp_attrs p') k = value_of (dp_attrs p) k;
    rb_adims : a_dims (dp_attrs p') = a_dims (dp_attrs p);
    rb_sums : a_coords (dp_attrs p') = cm_sums (dp_cm p') (dp_units p') }.

(** [p'] is [p]: the same data, dims, coordinates with units, and attributes;
    dicts may list their entries in another order. *)
Record same_dpatch (p p' : dpatch A) : Prop :=
  { sd_data : p_data (dp_patch p') = p_data (dp_patch p);
    sd_dims : cm_dims (dp_cm p') = cm_dims (dp_cm p);
    sd_dmap : forall n, assoc n (cm_dmap (dp_cm p')) = assoc n (cm_dmap (dp_cm p));
    sd_coords : forall n, assoc n (cm_coords (dp_cm p')) = assoc n (cm_coords (dp_cm p));
    sd_units : forall n, In n (map fst (cm_coords (dp_cm p))) ->
      unit_in (dp_units p') n = unit_in (dp_units p) n;
    sd_vals : forall k, k <> "dims"%string -> value_of (dp_attrs p') k = value_of (dp_attrs p) k;
    sd_adims : a_dims (dp_attrs p') = a_dims (dp_attrs p);
    sd_acoords : forall n, assoc n (a_coords (dp_attrs p')) = assoc n (a_coords (dp_attrs p)) }.

(** The patch saved last under a name. *)
Definition saved_last (l : list (string * dpatch A)) (n : string) p : Prop :=
  exists l1 l2, l = l1 ++ (n, p) :: l2 /\ ~ In n (map fst l2).
(** Everything an earlier patch of that name has is written again by [p]. *)
Definition covers (p q : dpatch A) : Prop :=
  incl (map fst (a_vals (dp_attrs q))) (map fst (a_vals (dp_attrs p))) /\
  incl (map fst (cm_coords (dp_cm q))) (map fst (cm_coords (dp_cm p))).
Definition replaced (l : list (string * dpatch A)) : Prop :=
  forall n p q, saved_last l n p -> In (n, q) l -> covers p q.
(** Patches with names for them that HDF5 takes. *)
Definition all_storable (l : list (string * dpatch A)) : Prop :=
  forall n p, In (n, p) l -> storable p /\ node_name n.

(** The names, each once and in order. *)
Definition names_in_order (l : list (string * dpatch A)) (ns : list string) : Prop :=
  NoDup ns /\ Sorted (fun a b => String.leb a b = true) ns /\ forall n, In n ns <-> In n (map fst l).
End Spec.

(** ** Names *)

(** Text in which the separator of a name is not mistaken. *)
Definition clean (s : string) : Prop := ~ contains "__" s /\ forall a, s <> (a ++ "_")%string.
(** A time to the second as pandas prints it; midnights may come as a date. *)
Definition digit (c : ascii) : bool := (48 <=? Z.of_nat (nat_of_ascii c)) && (Z.of_nat (nat_of_ascii c) <=? 57).
Fixpoint fits (pat s : string) : bool :=
  match pat, s with
  | EmptyString, EmptyString => true
  | String x pat, String c s => (if Ascii.eqb x "0" then digit c else Ascii.eqb x c) && fits pat s
  | _, _ => false
  end.
Definition stamp (s : string) : Prop := fits "0000-00-00 00:00:00" s = true \/ fits "0000-00-00" s = true.
(** [s] is the time [t] with or without a fraction of a second. *)
Definition shown_as (s t : string) : Prop := stamp t /\ (s = t \/ exists r, s = (t ++ "." ++ r)%string).

Section NamesSpec.
Context {A : Type}.
Implicit Types p q : dpatch A.
Definition text_of p (k s : string) : Prop := value_of (dp_attrs p) k = Some (AStr s).
(** Patches named by their attributes: no attribute replaces the generated name,
    and network, station and tag are clean text. *)
Definition plain_name p : Prop :=
  ~ In "name"%string (map fst (a_vals (dp_attrs p))) /\ ~ In "path"%string (map fst (a_vals (dp_attrs p))) /\
  forall k, In k ["network"; "station"; "tag"]%string -> exists s, text_of p k s /\ clean s.
Definition no_slash p : Prop :=
  forall k s, In k ["network"; "station"; "tag"]%string -> text_of p k s -> ~ contains "/" s.
Definition same_text p q : Prop :=
  forall k, In k ["network"; "station"; "tag"]%string -> value_of (dp_attrs p) k = value_of (dp_attrs q) k.
(** What pandas prints for the times of a list of patches: [sec p c] to the second,
    with or without a fraction. *)
Definition shows_times (show : list scal -> list string) (times : list scal -> bool) (ps : list (dpatch A))
    (sec : dpatch A -> string -> string) : Prop :=
  forall c f, In (c, f) [("time_min", s_min); ("time_max", s_max)]%string ->
    exists col, Forall2 (fun p v => exists s, assoc "time"%string (a_coords (dp_attrs p)) = Some s /\ v = f s /\ exists z, v = ANum z) ps col /\
      times col = true /\ Forall2 (fun p s => shown_as s (sec p c)) ps (show col).

(** Writing several times to one file, and the patches with their names. *)
Fixpoint write_seq (show : list scal -> list string) (times : list scal -> bool)
    (ws : list (list sdict * list (dpatch A))) (f : file A) : result (file A) :=
  match ws with
  | [] => Ok f
  | (rows, ps) :: ws => do f' <- dasdae_write show times rows ps f; write_seq show times ws f'
  end.
Inductive named (show : list scal -> list string) (times : list scal -> bool)
  : list (list sdict * list (dpatch A)) -> list (string * dpatch A) -> Prop :=
  | named_nil : named show times [] []
  | named_cons rows ps ns ws l : patch_names show times rows = Ok ns -> named show times ws l ->
      named show times ((rows, ps) :: ws) (combine ns ps ++ l).
End NamesSpec.
