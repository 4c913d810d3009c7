(** Specification vocabulary for processing history (C38). *)
From Verif Require Import Base FrameModel AttrsModel AttrsSpec HistoryModel.
From Coq Require Import Strings.String.
Local Open Scope Z_scope.

Section Spec.
Context {B W : Type}.

(** A patch as the library builds it: attributes that can be told from coordinate
    information, with the dims and the coordinate summaries of the coordinate
    manager; no summary has a missing value; and what is said about a coordinate
    that is no dimension cannot be taken for something about a dimension. *)
Record conforms (p : hpatch B) : Prop :=
  { cf_family : family [h_attrs p];
    cf_clear : clear_names (h_attrs p);
    cf_some : a_dims (h_attrs p) <> EmptyString;
    cf_dims : h_dims p = dim_tuple (h_attrs p);
    cf_coords : h_sums p = a_coords (h_attrs p);
    cf_solid : forall n s, In (n, s) (h_sums p) -> solid s;
    cf_lone : forall n s d f, In (n, s) (h_sums p) -> ~ In n (h_dims p) -> In d (h_dims p) ->
      In f ["dtype"; "min"; "max"; "step"; "units"]%string ->
      ~ starts d (n ++ "_" ++ f) /\ (n ++ "_" ++ f)%string <> ("d_" ++ d)%string }.

(** The history of a patch is the list of entries [h]. *)
Definition history_is (p : hpatch B) (h : list string) : Prop :=
  value_of (h_attrs p) "history" = Some (ASeq h).

(** [r] is [q] but for the attributes [kvs]. *)
Record only_attrs (q : hpatch B) (kvs : list (string * scal)) (r : hpatch B) : Prop :=
  { oa_new : forall k v, In (k, v) kvs -> value_of (h_attrs r) k = Some v;
    oa_old : forall k, k <> "dims"%string -> ~ In k (map fst kvs) -> value_of (h_attrs r) k = value_of (h_attrs q) k;
    oa_adims : a_dims (h_attrs r) = a_dims (h_attrs q);
    oa_acoords : a_coords (h_attrs r) = a_coords (h_attrs q);
    oa_dims : h_dims r = h_dims q;
    oa_sums : h_sums r = h_sums q;
    oa_body : h_body r = h_body q }.

(** What a decorated function needs is there. *)
Definition provided (need : option (list string)) (have : list string) : Prop :=
  match need with Some l => incl l have | None => True end.
Definition attrs_met (r : areq) (a : attrs) : Prop :=
  match r with
  | AnyAttrs => True
  | NamedAttrs l => forall k, In k l -> k = "dims"%string \/ k = "coords"%string \/ value_of a k <> None
  | TheseAttrs l => forall k v, In (k, v) l -> exists w, attr_read a k = Ok w /\ scal_eqb w v = true
  end.
Definition requirements_met (f : pfunc) (p : hpatch B) : Prop :=
  provided (f_dims f) (h_dims p) /\ provided (f_coords f) (map fst (h_sums p)) /\ attrs_met (f_attrs f) (h_attrs p).

(** [s] has all objects of [st], unchanged. *)
Definition keeps (st s : state B W) : Prop :=
  forall i p, nth_error (heap st) i = Some p -> nth_error (heap s) i = Some p.

(** The attribute data_type a function sets, if any. *)
Definition type_set (f : pfunc) : list (string * scal) :=
  match f_type f with Some t => [("data_type"%string, AStr t)] | None => [] end.

(** A function that makes new patches with the history of its input, changing no
    patch there is. *)
Definition makes_new (b : body B W) : Prop :=
  forall i pos kw st r st' p, nth_error (heap st) i = Some p -> conforms p -> b i pos kw st = (Ok r, st') ->
  keeps st st' /\ exists j q, r = RRef j /\ j <> i /\ nth_error (heap st') j = Some q /\ conforms q /\
    value_of (h_attrs q) "history" = value_of (h_attrs p) "history".

(** Calls one after the other, each on the result of the one before. *)
Record step := mkStep { s_func : pfunc; s_run : body B W; s_pos : list pyval; s_kw : list (string * pyval) }.
Fixpoint calls (l : list step) (i : nat) (st : state B W) : result ret * state B W :=
  match l with
  | [] => (Ok (RRef i), st)
  | s :: t =>
      match call (s_func s) (s_run s) i (s_pos s) (s_kw s) st with
      | (Ok (RRef j), st) => calls t j st
      | r => r
      end
  end.
(** The entry a step leaves; a step that records nothing leaves none. *)
Definition entry_of (s : step) (e : list string) : Prop :=
  match f_mode (s_func s) with
  | NoHistory => e = []
  | NameOnly => e = if String.eqb (f_name (s_func s)) EmptyString then [] else [f_name (s_func s)]
  | Full => exists t, call_string (f_name (s_func s)) (f_sig (s_func s)) (PPatch :: s_pos s) (s_kw s) = Ok t /\ e = [t]
  end.
End Spec.

(** ** The text of an entry *)

(** What a parameter receives: the positional argument at its place, the keyword of
    its name, else its default; the star parameter takes the positional arguments
    beyond; a keyword that is no parameter's name goes to the extra keywords. *)
Inductive receives (g : signature) (pos : list pyval) (kw : list (string * pyval)) : string -> pyval -> Prop :=
| by_place i p d v : nth_error (g_pos g) i = Some (p, d) -> nth_error pos i = Some v -> receives g pos kw p v
| by_name i p d v : nth_error (g_pos g) i = Some (p, d) -> nth_error pos i = None -> In (p, v) kw -> receives g pos kw p v
| by_default i p v : nth_error (g_pos g) i = Some (p, Some v) -> nth_error pos i = None -> ~ In p (map fst kw) ->
    receives g pos kw p v
| only_name p d v : In (p, d) (g_only g) -> In (p, v) kw -> receives g pos kw p v
| only_default p v : In (p, Some v) (g_only g) -> ~ In p (map fst kw) -> receives g pos kw p v
| by_star p : g_star g = Some p -> receives g pos kw p (PTuple (skipn (List.length (g_pos g)) pos)).
Definition extra (g : signature) (kw : list (string * pyval)) (p : string) (v : pyval) : Prop :=
  In (p, v) kw /\ ~ In p (map fst (g_pos g)) /\ ~ In p (map fst (g_only g)).
(** The arguments an entry mentions: all that are not None, but the patch itself. *)
Definition argument g pos kw (p : string) (v : pyval) : Prop :=
  v <> PNone /\ receives g pos kw p v /\ p <> "patch"%string /\ p <> "self"%string.
Definition extra_argument g kw (p : string) (v : pyval) : Prop := v <> PNone /\ extra g kw p v.
Definition mention (e : string * pyval) : string := (fst e ++ "=" ++ py_repr (format_values (snd e)))%string.
(** The parameters of a function have names of their own. *)
Definition names_apart (g : signature) : Prop :=
  NoDup (map fst (g_pos g) ++ match g_star g with Some s => [s] | None => [] end ++ map fst (g_only g)).

(** The text of a value: None, a leaf's own text, lists in brackets and tuples in
    parentheses with commas, other patches abbreviated. *)
Inductive shows : pyval -> string -> Prop :=
| shows_none : shows PNone "None"
| shows_text s : shows (PText s) s
| shows_list l ss : Forall2 shows l ss -> shows (PList l) ("[" ++ String.concat "," ss ++ "]")
| shows_tuple l ss : Forall2 shows l ss -> shows (PTuple l) ("(" ++ String.concat "," ss ++ ")")
| shows_patch : shows PPatch "Patch...".
(** The call gives the argument [p] a value with the text [s]. *)
Definition given (g : signature) (pos : list pyval) (kw : list (string * pyval)) (p s : string) : Prop :=
  exists v, (argument g pos kw p v \/ extra_argument g kw p v) /\ shows v s.
Definition without (c : Ascii.ascii) (s : string) : Prop := forall a b, s <> (a ++ String c b)%string.
