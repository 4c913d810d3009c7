(** Specification vocabulary for merging: which coordinates the managers share,
    when they agree, and in which order the managers are joined. *)
From Verif Require Import Base CoordModel CoordSpec NdModel NdSpec FrameModel CmModel CmSpec.
From Coq Require Import Strings.String Sorting.Sorted Sorting.Permutation.
Local Open Scope Z_scope.
Local Open Scope list_scope.

(** Coordinates that [==] takes for the same. *)
Definition same_coord (a b : mcoord) : Prop :=
  match a, b with
  | M1 c, M1 d => confusable c d
  | MN k x, MN l y => k = l /\ nd_shape x = nd_shape y /\
                      Forall2 (close_values k) (nd_flat x) (nd_flat y)
  | MNP s, MNP t => s = t
  | _, _ => False
  end.

(** The values of a dimension and the least of them. *)
Definition values_of (d : string) (cm : cman) : list Z :=
  match assoc d (cm_coords cm) with Some (M1 c) => c_ints c | _ => [] end.
Definition start_of (d : string) (cm : cman) : Z :=
  match values_of d cm with [] => 0 | x :: t => fold_left Z.min t x end.

(** Every manager has coordinate [n] with dimensions [ds]. *)
Definition shared (cms : list cman) (n : string) (ds : list string) : Prop :=
  forall cm, In cm cms -> assoc n (cm_dmap cm) = Some ds.

(** Coordinate [n] of [f] is that of every manager. *)
Definition agrees_with_all (cms : list cman) (f : cman) (n : string) : Prop :=
  forall g a b, In g cms -> assoc n (cm_coords f) = Some a -> assoc n (cm_coords g) = Some b ->
    same_coord a b.

(** [s] is [l] in ascending order of a key, equal keys in their old order. *)
Definition stable_by {B} (key : B -> Z) (l s : list B) : Prop :=
  Permutation s l /\ StronglySorted (fun a b => key a <= key b) s /\
  forall k, filter (fun x => key x =? k) s = filter (fun x => key x =? k) l.

(** Managers with dimensions [D] that have values of one kind along [dim]. *)
Record joinable (D : list string) (dim : string) (k : kind) (cms : list cman) : Prop :=
  { jn_some : cms <> [];
    jn_wf : forall cm, In cm cms -> wf_cm cm;
    jn_dims : forall cm, In cm cms -> cm_dims cm = D;
    jn_dim : In dim D;
    jn_vals : forall cm, In cm cms ->
      exists c, assoc dim (cm_coords cm) = Some (M1 c) /\ concrete c /\ c_kind c = k }.

(** No shared coordinate but the dimension's own depends on [dim]. *)
Definition alone (dim : string) (cms : list cman) : Prop :=
  forall n ds, shared cms n ds -> In dim ds -> n = dim.
(** Weaker: those that do have it as their first dimension. *)
Definition leading (dim : string) (cms : list cman) : Prop :=
  forall n ds, shared cms n ds -> In dim ds -> exists t, ds = dim :: t.

(** The coordinates that have to agree do. *)
Definition agreeable (drop : bool) (D : list string) (dim : string) (cms : list cman) : Prop :=
  forall n ds f, shared cms n ds -> ~ In dim ds -> drop = false \/ In n D -> In f cms ->
    agrees_with_all cms f n.

(** Ranges of lengths [ns] with step [s] laid end to end from [a]: range i starts
    at [a + (n1 + .. + n(i-1)) * s]. [close_starts] says that the given starts are
    within num/den steps of these. *)
Fixpoint close_starts (num den s a : Z) (l : list (Z * Z)) : Prop :=
  match l with
  | [] => True
  | (start, n) :: t => den * Z.abs (a - start) <= num * s /\ close_starts num den s (a + n * s) t
  end.

(** The dimension is a range with step [s] in every manager. *)
Definition ranges_along (dim : string) (s : Z) (cms : list cman) : Prop :=
  forall cm, In cm cms -> exists r, assoc dim (cm_coords cm) = Some (M1 (CRange r)) /\ r_step r = s.
Definition span_of (dim : string) (cm : cman) : Z * Z := (start_of dim cm, zlen (values_of dim cm)).

(** The outcome of a merge: the dimensions stay, [dim] has the values [vs], a
    coordinate all managers have (with the same dimensions) is that of [first] where
    they agree and absent otherwise, and so are coordinates they do not all have. *)
Definition merged_as (D : list string) (dim : string) (cms : list cman) (first : cman) (vs : list Z) (out : cman) : Prop :=
  wf_cm out /\ cm_dims out = D /\
  (exists c, assoc dim (cm_coords out) = Some (M1 c) /\ represents c vs) /\
  (forall n ds m, shared cms n ds -> n <> dim -> assoc n (cm_coords first) = Some m ->
     (agrees_with_all cms first n -> assoc n (cm_dmap out) = Some ds /\
        exists m', assoc n (cm_coords out) = Some m' /\ carried m m' (full (m_shape m))) /\
     (~ agrees_with_all cms first n -> assoc n (cm_coords out) = None)) /\
  (forall n, (forall ds, ~ shared cms n ds) -> assoc n (cm_coords out) = None).

(** [out] is the arrays [l] one after the other along axis [ax]: the element of an
    array is found as many places further on as the arrays before it are long. *)
Definition stacked {A} (ax : nat) (l : list (nd A)) (out : nd A) : Prop :=
  forall pre a post ix j, l = pre ++ a :: post -> inb (nd_shape a) ix -> nth_error ix ax = Some j ->
    nd_get out (put ix ax (fold_right Z.add 0 (map (fun b => nth ax (nd_shape b) 0) pre) + j)) = nd_get a ix.

(** Two or more patches in ascending order along [d] that can be merged there: the
    other dimensions have the very same coordinates. *)
Record mergeable {A} (drop : bool) (D : list string) (d : string) (k : kind) (ps : list (patch A)) : Prop :=
  { mb_wf : forall p, In p ps -> wf_patch p;
    mb_two : (2 <= List.length ps)%nat;
    mb_join : joinable D d k (map p_cm ps);
    mb_alone : alone d (map p_cm ps);
    mb_agree : agreeable drop D d (map p_cm ps);
    mb_same : forall e p q, In e D -> e <> d -> In p ps -> In q ps ->
      assoc e (cm_coords (p_cm p)) = assoc e (cm_coords (p_cm q));
    mb_up : StronglySorted (fun a b => start_of d a < start_of d b) (map p_cm ps) }.

(** Each patch continues the one before: its first label is one step [s] after the
    last. *)
Definition continues (d : string) (s : Z) (cms : list cman) : Prop :=
  match cms with
  | [] => True
  | c :: _ => close_starts 0 1 s (start_of d c) (map (span_of d) cms)
  end.

(** The smallest and largest label and the step of dimension [d]. *)
Definition extent (d : string) (cm : cman) (mn mx : Z) (st : option Z) : Prop :=
  exists c, assoc d (cm_coords cm) = Some (M1 c) /\ c_min c = Some mn /\ c_max c = Some mx /\ match c with CRange r => Some (r_step r) | _ => None end = st.
(** The two managers do not cover the same labels of [d]. *)
Definition moved (d : string) (cm cm' : cman) : Prop :=
  exists mn mx st mn' mx' st', extent d cm mn mx st /\ extent d cm' mn' mx' st' /\ (mn <> mn' \/ mx <> mx').
