(** Specification vocabulary for operations between patches: which elements of
    the operands meet, told by the labels of the dimensions. *)
From Verif Require Import Base CoordModel CoordSpec NdModel NdSpec FrameModel CmModel CmSpec.
From Coq Require Import Strings.String.
Local Open Scope Z_scope.
Local Open Scope list_scope.

(** The coordinate of dimension [d]. *)
Definition dim_coord (cm : cman) (d : string) : option coord :=
  if mem d (cm_dims cm)
  then match assoc d (cm_coords cm) with Some (M1 c) => Some c | _ => None end
  else None.

(** The names of the first operand, then those only the second has. *)
Definition all_dims (a b : list string) : list string :=
  a ++ filter (fun d => negb (mem d a)) b.

(** A dimension without labels and of length 1 goes with anything. *)
Definition stretches (c : coord) : bool := match c with CPart n => n =? 1 | _ => false end.

(** Coordinates of one dimension that can be matched label by label: distinct
    labels of one kind, not nearly but not exactly even, and different if they
    differ by more than what np.isclose forgives. *)
Record comparable (c c' : coord) : Prop :=
  { cmp_left : concrete c; cmp_right : concrete c';
    cmp_kind : c_kind c = c_kind c';
    cmp_nodup : NoDup (c_ints c) /\ NoDup (c_ints c');
    cmp_spread : spread (c_ints c) /\ spread (c_ints c');
    cmp_apart : Forall2 (close_values (c_kind c)) (c_ints c) (c_ints c') -> c_ints c = c_ints c' }.

(** What both operands can have of one dimension. *)
Definition matches (o o' : option coord) : Prop :=
  match o, o' with
  | Some c, Some c' => comparable c c' \/ (stretches c = true /\ 0 < c_len c')
                       \/ (stretches c' = true /\ 0 < c_len c)
  | Some c, None | None, Some c => 0 < c_len c
  | None, None => True
  end.

(** Two managers the code can line up. The last two fields leave out what the
    refuted theorems are about: the same dimensions and labels in another order,
    and coordinates of both that are partial or belong to a stretched dimension. *)
Record operands (a b : cman) : Prop :=
  { op_shared : exists d, In d (cm_dims a) /\ In d (cm_dims b);
    op_left : forall d, In d (cm_dims b) -> ~ In d (cm_dims a) -> ~ In d (map fst (cm_coords a));
    op_right : forall d, In d (cm_dims a) -> ~ In d (cm_dims b) -> ~ In d (map fst (cm_coords b));
    op_names : forall n, In n (map fst (cm_coords a)) \/ In n (map fst (cm_coords b)) ->
                 limit_key (cm_dims a ++ cm_dims b) n = false;
    op_match : forall d, matches (dim_coord a d) (dim_coord b d);
    op_order : cm_dims a = cm_dims b \/
               exists d, (In d (cm_dims a) /\ ~ In d (cm_dims b)) \/ (In d (cm_dims b) /\ ~ In d (cm_dims a)) \/
                 exists c c', dim_coord a d = Some c /\ dim_coord b d = Some c' /\ c_ints c <> c_ints c';
    op_assoc : forall n m m', assoc n (cm_coords a) = Some m -> assoc n (cm_coords b) = Some m' ->
                 ~ In n (cm_dims a) -> ~ In n (cm_dims b) ->
                 (match m with M1 (CPart _) | MNP _ => False | _ => True end) /\
                 (match m' with M1 (CPart _) | MNP _ => False | _ => True end) /\
                 forall ds d c, assoc n (cm_dmap a) = Some ds -> In d ds -> dim_coord a d = Some c ->
                   stretches c = false }.

(** The labels both have: those of either if they are the same, otherwise the
    common ones in ascending order. *)
Definition common_labels (v w vs : list Z) : Prop :=
  (v = w /\ vs = v) \/
  (ascending vs /\ forall x, In x vs <-> In x v /\ In x w).

(** [vs d] are the labels that dimension [d] of both operands has in common;
    meaningful when both have the dimension and neither stretches. *)
Definition is_common (a b : cman) (vs : string -> list Z) : Prop :=
  forall d c c', dim_coord a d = Some c -> dim_coord b d = Some c' ->
    stretches c = false -> stretches c' = false -> common_labels (c_ints c) (c_ints c') (vs d).

(** The coordinate of dimension [d] of the result. *)
Definition result_coord (a b : cman) (vs : string -> list Z) (d : string) (m : mcoord) : Prop :=
  match dim_coord a d, dim_coord b d with
  | Some c, Some c' =>
      if stretches c then carried (M1 c') m (full [c_len c'])
      else if stretches c' then carried (M1 c) m (full [c_len c])
      else exists cr, m = M1 cr /\ represents cr (vs d)
  | Some c, None | None, Some c => carried (M1 c) m (full [c_len c])
  | None, None => False
  end.

(** Position [i] of the result along [d] combines position [j] of the first
    operand with position [k] of the second. *)
Definition pairs_up (a b : cman) (vs : string -> list Z) (d : string) (i j k : Z) : Prop :=
  match dim_coord a d, dim_coord b d with
  | Some c, Some c' =>
      if stretches c || stretches c'
      then j = (if stretches c then 0 else i) /\ k = (if stretches c' then 0 else i)
      else exists x, znth (vs d) i = Some x /\ znth (c_ints c) j = Some x /\ znth (c_ints c') k = Some x
  | Some _, None => j = i
  | None, Some _ => k = i
  | None, None => True
  end.

(** [pos] is a position of the patch. *)
Definition inside {A} (p : patch A) (pos : string -> Z) : Prop :=
  forall d, In d (cm_dims (p_cm p)) -> exists n, dim_len (p_cm p) d n /\ 0 <= pos d < n.

(** [r] is the result of [op] on [p] and [q], element by element with labels
    matched. *)
Record combined {A B C} (op : A -> B -> C) (p : patch A) (q : patch B) (r : patch C)
  (vs : string -> list Z) : Prop :=
  { cb_wf : wf_patch r;
    cb_dims : cm_dims (p_cm r) = all_dims (cm_dims (p_cm p)) (cm_dims (p_cm q));
    cb_common : is_common (p_cm p) (p_cm q) vs;
    cb_coords : forall d, In d (cm_dims (p_cm r)) ->
      exists m, assoc d (cm_coords (p_cm r)) = Some m /\ result_coord (p_cm p) (p_cm q) vs d m;
    cb_data : forall pos, inside r pos ->
      exists jp jq x y, data_at p jp = Some x /\ data_at q jq = Some y /\ data_at r pos = Some (op x y) /\
        forall d, In d (cm_dims (p_cm r)) -> pairs_up (p_cm p) (p_cm q) vs d (pos d) (jp d) (jq d);
    cb_assoc : forall n m', ~ In n (cm_dims (p_cm r)) -> assoc n (cm_coords (p_cm r)) = Some m' ->
      exists m, assoc n (cm_coords (p_cm p)) = Some m /\ carried m m' (full (m_shape m)) /\
        assoc n (cm_dmap (p_cm r)) = assoc n (cm_dmap (p_cm p));
    cb_kept : forall n m ds, ~ In n (cm_dims (p_cm r)) -> assoc n (cm_coords (p_cm p)) = Some m ->
      assoc n (cm_dmap (p_cm p)) = Some ds ->
      (assoc n (cm_coords (p_cm r)) <> None <->
       forall d k, In d ds -> dim_len (p_cm p) d k -> dim_len (p_cm r) d k) }.

(** ** A patch and an array
    The array's axes are the last dimensions of the patch, [lb] their lengths; the
    [k] dimensions before them count as length 1. *)
Record fits {A B} (p : patch A) (b : nd B) (k : nat) (lb : string -> Z) : Prop :=
  { ft_count : (k <= List.length (cm_dims (p_cm p)))%nat;
    ft_shape : nd_shape b = map lb (skipn k (cm_dims (p_cm p)));
    ft_front : forall d, In d (firstn k (cm_dims (p_cm p))) -> lb d = 1 }.

(** Every dimension has the length of the array, or one of the two is 1, and only
    a dimension without labels has to grow. *)
Definition stretchable {A} (p : patch A) (lb : string -> Z) : Prop :=
  forall d c, In d (cm_dims (p_cm p)) -> assoc d (cm_coords (p_cm p)) = Some (M1 c) ->
    lb d = c_len c \/ lb d = 1 \/ (c = CPart 1 /\ 0 < lb d).

(** Dimension [d] has length 1. *)
Definition stretched (cm : cman) (d : string) : bool :=
  match assoc d (cm_coords cm) with Some (M1 c) => c_len c =? 1 | _ => false end.

(** [r] is the result of [op] on [p] and the array [b]. *)
Record scaled {A B C} (op : A -> B -> C) (p : patch A) (b : nd B) (k : nat) (lb : string -> Z)
  (r : patch C) : Prop :=
  { sc_wf : wf_patch r;
    sc_dims : cm_dims (p_cm r) = cm_dims (p_cm p);
    sc_coords : forall d c, In d (cm_dims (p_cm p)) -> assoc d (cm_coords (p_cm p)) = Some (M1 c) ->
      exists m, assoc d (cm_coords (p_cm r)) = Some m /\
        if stretched (p_cm p) d && (1 <? lb d) then m = M1 (CPart (lb d)) else carried (M1 c) m (full [c_len c]);
    sc_data : forall pos, inside r pos ->
      exists x y, data_at p (fun d => if stretched (p_cm p) d then 0 else pos d) = Some x /\
        nd_get b (map (fun d => if lb d =? 1 then 0 else pos d) (skipn k (cm_dims (p_cm p)))) = Some y /\
        data_at r pos = Some (op x y);
    sc_kept : forall n m ds, ~ In n (cm_dims (p_cm p)) -> assoc n (cm_coords (p_cm p)) = Some m ->
      assoc n (cm_dmap (p_cm p)) = Some ds ->
      if existsb (fun d => stretched (p_cm p) d && (1 <? lb d)) ds then assoc n (cm_coords (p_cm r)) = None
      else exists m', assoc n (cm_coords (p_cm r)) = Some m' /\ carried m m' (full (m_shape m)) }.
