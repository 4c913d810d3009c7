(** Specification vocabulary for concatenating and stacking patches: which patches
    go together, how they are grouped, and what the outcome holds. *)
From Verif Require Import Base CoordModel CoordSpec NdModel NdSpec FrameModel CmModel CmSpec MergeSpec.
From Coq Require Import Strings.String Strings.Ascii.
Local Open Scope Z_scope.
Local Open Scope list_scope.

(** Names that start with an underscore. *)
Definition hidden (n : string) : Prop := exists t, n = String "_"%char t.

(** Every coordinate both managers have is the same in both; for [free] it is
    enough that [loose] holds. *)
Definition agree_but (free : option string) (loose : mcoord -> mcoord -> Prop) (f g : cman) : Prop :=
  forall n a b, assoc n (cm_coords f) = Some a -> assoc n (cm_coords g) = Some b ->
    same_coord a b \/ (free = Some n /\ loose a b).
(** For concatenation hidden coordinates do not count and any two coordinates will
    do along the dimension. *)
Definition fits_first {A} (d : string) (f p : patch A) : Prop :=
  forall n a b, ~ hidden n -> n <> d ->
    assoc n (cm_coords (p_cm f)) = Some a -> assoc n (cm_coords (p_cm p)) = Some b -> same_coord a b.
(** For stacking the free dimension must at least have the same length. *)
Definition stackable {A} (free : option string) (f p : patch A) : Prop :=
  agree_but free (fun a b => m_shape a = m_shape b) (p_cm f) (p_cm p).

(** [kept] is what is left of [l] without the elements that lack [P]. *)
Inductive selects {B} (P : B -> Prop) : list B -> list B -> Prop :=
  | sel_nil : selects P [] []
  | sel_take x l k : P x -> selects P l k -> selects P (x :: l) (x :: k)
  | sel_skip x l k : ~ P x -> selects P l k -> selects P (x :: l) k.

(** [gs] is [l] cut into pieces of [n] (the last one may be shorter), or in one
    piece. *)
Definition in_pieces {B} (n : option Z) (l : list B) (gs : list (list B)) : Prop :=
  List.concat gs = l /\
  exists init last, gs = init ++ [last] /\ last <> [] /\
    match n with
    | None => init = []
    | Some k => zlen last <= k /\ forall g, In g init -> zlen g = k
    end.

(** Patches that can be handed to concatenate: the same dimensions, none hidden. *)
Record alike {A} (D : list string) (ps : list (patch A)) : Prop :=
  { al_some : ps <> [];
    al_wf : forall p, In p ps -> wf_patch p;
    al_dims : forall p, In p ps -> cm_dims (p_cm p) = D;
    al_plain : forall p, In p ps -> plain_names (p_cm p);
    al_open : forall d, In d D -> ~ hidden d }.

(** All have values of one kind along [d]. *)
Definition valued {A} (d : string) (k : kind) (ps : list (patch A)) : Prop :=
  forall p, In p ps -> exists c, assoc d (cm_coords (p_cm p)) = Some (M1 c) /\ concrete c /\ c_kind c = k.
(** None has values along [d]. *)
Definition unvalued {A} (d : string) (ps : list (patch A)) : Prop :=
  forall p, In p ps -> exists n, assoc d (cm_coords (p_cm p)) = Some (M1 (CPart n)).

(** Coordinate [n] of [out] is that of [first] and still belongs to the same
    dimensions. *)
Definition keeps {A} (first out : patch A) (n : string) : Prop :=
  exists m m', assoc n (cm_coords (p_cm first)) = Some m /\ assoc n (cm_coords (p_cm out)) = Some m' /\
    carried m m' (full (m_shape m)) /\
    assoc n (cm_dmap (p_cm out)) = assoc n (cm_dmap (p_cm first)).
Definition lacks_coord {A} (p : patch A) (n : string) : Prop :=
  assoc n (cm_coords (p_cm p)) = None /\ assoc n (cm_dmap (p_cm p)) = None.
Definition length_of {A} (d : string) (p : patch A) : Z :=
  match assoc d (cm_coords (p_cm p)) with Some (M1 c) => c_len c | _ => 0 end.

(** [out] is the patches [first :: rest] end to end along their dimension [d]; its
    labels along [d] are judged by [labels]. A coordinate of [first] that belongs to
    [d] has no values for the others and is gone, unless they are empty. *)
Record joined {A} (D : list string) (d : string) (labels : coord -> Prop)
  (first : patch A) (rest : list (patch A)) (out : patch A) : Prop :=
  { jd_wf : wf_patch out;
    jd_dims : cm_dims (p_cm out) = D;
    jd_data : exists ax, nth_error D ax = Some d /\ stacked ax (map p_data (first :: rest)) (p_data out);
    jd_labels : exists c, assoc d (cm_coords (p_cm out)) = Some (M1 c) /\ labels c;
    jd_keep : forall n ds, n <> d -> ~ hidden n -> assoc n (cm_dmap (p_cm first)) = Some ds ->
      ~ In d ds \/ length_of d out = length_of d first -> keeps first out n;
    jd_drop : forall n ds, n <> d -> assoc n (cm_dmap (p_cm first)) = Some ds ->
      In d ds -> length_of d out <> length_of d first -> lacks_coord out n;
    jd_none : forall n, n <> d -> hidden n \/ assoc n (cm_coords (p_cm first)) = None -> lacks_coord out n }.

(** [out] holds the patches of [g] side by side along the new dimension [d]. *)
Record layered {A} (D : list string) (d : string) (g : list (patch A)) (out : patch A) : Prop :=
  { ly_wf : wf_patch out;
    ly_dims : cm_dims (p_cm out) = D ++ [d];
    ly_data : forall i p ix, znth g i = Some p -> inb (nd_shape (p_data p)) ix ->
      nd_get (p_data out) (ix ++ [i]) = nd_get (p_data p) ix;
    ly_new : assoc d (cm_coords (p_cm out)) = Some (M1 (CPart (zlen g)));
    ly_keep : forall first rest n m, g = first :: rest -> n <> d -> ~ hidden n ->
      assoc n (cm_coords (p_cm first)) = Some m -> keeps first out n;
    ly_none : forall first rest n, g = first :: rest -> n <> d ->
      hidden n \/ assoc n (cm_coords (p_cm first)) = None -> lacks_coord out n }.

(** Patches with the same dimensions. *)
Record uniform {A} (D : list string) (ps : list (patch A)) : Prop :=
  { un_wf : forall p, In p ps -> wf_patch p;
    un_dims : forall p, In p ps -> cm_dims (p_cm p) = D }.

(** [out] has at every position the sum of the patches, taken in order from
    [zero]. *)
Definition summed {A} (zero : A) (add : A -> A -> A) (ps : list (patch A)) (s : list Z) (out : nd A) : Prop :=
  nd_shape out = s /\
  forall ix, inb s ix -> exists vs,
    Forall2 (fun p v => nd_get (p_data p) ix = Some v) ps vs /\
    nd_get out ix = Some (fold_left add vs zero).
(** The labels of a stack along the dimension that was free: those of the first
    patch moved so that the first label (the least one, if they are not evenly
    spaced) is zero. *)
Definition rebased (c c' : coord) : Prop :=
  exists o, (match c with CRange _ => znth (c_ints c) 0 = Some o | _ => is_least o (c_ints c) end) /\
    represents c' (map (fun x => x - o) (c_ints c)).
