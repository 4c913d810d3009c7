(** Specification vocabulary for aggregating along dimensions. *)
From Verif Require Import Base CoordModel CoordSpec NdModel NdSpec FrameModel CmModel CmSpec ConcatSpec AggModel.
From Coq Require Import Strings.String.
Local Open Scope Z_scope.
Local Open Scope list_scope.

(** A multi-index with one more entry at a place. *)
Definition with_entry (kx : list Z) (ax : nat) (i : Z) : list Z := firstn ax kx ++ i :: skipn ax kx.
(** [vs] are the elements along an axis, in order, at the place [kx] of the others. *)
Definition along {A} (a : nd A) (ax : nat) (n : Z) (kx : list Z) (vs : list A) : Prop :=
  zlen vs = n /\ forall i, 0 <= i < n -> nd_get a (with_entry kx ax i) = znth vs i.
(** [b] is [a] with each line along an axis replaced by what [f] makes of it; the
    axis is gone, or has length one. *)
Definition folded {A B} (f : list A -> B) (ax : nat) (a : nd A) (b : nd B) : Prop :=
  exists s n, nd_shape a = with_entry s ax n /\ (ax <= List.length s)%nat /\ nd_shape b = s /\
    forall kx, inb s kx -> exists vs, along a ax n kx vs /\ nd_get b kx = Some (f vs).
Definition folded_kept {A B} (f : list A -> B) (ax : nat) (a : nd A) (b : nd B) : Prop :=
  exists s n, nd_shape a = with_entry s ax n /\ (ax <= List.length s)%nat /\ nd_shape b = with_entry s ax 1 /\
    forall kx, inb s kx -> exists vs, along a ax n kx vs /\ nd_get b (with_entry kx ax 0) = Some (f vs).

(** [out] is [p] folded along [d], which keeps one label judged by [labels].
    Coordinates along [d] are gone, unless [d] had one label before. *)
Record collapsed {A} (f : list A -> A) (d : string) (labels : coord -> coord -> Prop) (p out : patch A) : Prop :=
  { co_wf : wf_patch out;
    co_dims : cm_dims (p_cm out) = cm_dims (p_cm p);
    co_data : exists ax, nth_error (cm_dims (p_cm p)) ax = Some d /\ folded_kept f ax (p_data p) (p_data out);
    co_labels : exists c c', assoc d (cm_coords (p_cm p)) = Some (M1 c) /\
                  assoc d (cm_coords (p_cm out)) = Some (M1 c') /\ labels c c' /\ c_len c' = 1;
    co_keep : forall n m, n <> d -> assoc n (cm_coords (p_cm p)) = Some m ->
      ~ In d (dims_of (p_cm p) n) \/ length_of d p = 1 -> keeps p out n;
    co_drop : forall n, n <> d -> In d (dims_of (p_cm p) n) -> length_of d p <> 1 -> lacks_coord out n;
    co_none : forall n, assoc n (cm_coords (p_cm p)) = None -> lacks_coord out n }.
(** A lone label stays, several are unknown. *)
Definition lone_or_unknown (c c' : coord) : Prop :=
  (c_len c = 1 /\ carried (M1 c) (M1 c') (full [1])) \/ (c_len c <> 1 /\ c' = CPart 1).
(** The label is what [g] makes of the labels. *)
Definition label_of (g : list Z -> Z) (c c' : coord) : Prop := represents c' [g (c_ints c)].

(** [out] is [p] folded along [d], which is gone. *)
Record removed {A} (f : list A -> A) (d : string) (p out : patch A) : Prop :=
  { re_wf : wf_patch out;
    re_dims : exists ax, nth_error (cm_dims (p_cm p)) ax = Some d /\ folded f ax (p_data p) (p_data out) /\
                cm_dims (p_cm out) = firstn ax (cm_dims (p_cm p)) ++ skipn (S ax) (cm_dims (p_cm p));
    re_keep : forall n m, assoc n (cm_coords (p_cm p)) = Some m -> ~ In d (dims_of (p_cm p) n) ->
      assoc n (cm_coords (p_cm out)) = Some m /\ assoc n (cm_dmap (p_cm out)) = assoc n (cm_dmap (p_cm p));
    re_drop : forall n, In d (dims_of (p_cm p) n) \/ assoc n (cm_coords (p_cm p)) = None -> lacks_coord out n }.

(** One step per name, in the order of the names. *)
Inductive steps {B C} (step : C -> B -> B -> Prop) : list C -> B -> B -> Prop :=
  | steps_nil x : steps step [] x x
  | steps_cons d l x y z : step d x y -> steps step l y z -> steps step (d :: l) x z.

(** [out] is [p] with the data of [r], which has lost the axes marked; the
    dimensions marked have one label, unknown unless it was the only one. *)
Fixpoint unmarked {B} (ms : list bool) (l : list B) : list B :=
  match ms, l with
  | true :: ms', _ :: l' => unmarked ms' l'
  | false :: ms', x :: l' => x :: unmarked ms' l'
  | _, _ => []
  end.
Definition marked (axes : list nat) (D : list string) (d : string) : Prop :=
  exists k, In k axes /\ nth_error D k = Some d.
Record relabelled {A} (axes : list nat) (r : nd A) (p out : patch A) : Prop :=
  { rl_wf : wf_patch out;
    rl_dims : cm_dims (p_cm out) = cm_dims (p_cm p);
    rl_shape : Forall2 (fun d n => marked axes (cm_dims (p_cm p)) d -> n = 1) (cm_dims (p_cm p)) (nd_shape (p_data out));
    rl_data : forall ix, inb (nd_shape (p_data out)) ix ->
      nd_get (p_data out) ix =
      nd_get r (unmarked (map (fun k => existsb (Nat.eqb k) axes) (seq 0 (List.length (nd_shape (p_data p))))) ix);
    rl_labels : forall d c, marked axes (cm_dims (p_cm p)) d -> assoc d (cm_coords (p_cm p)) = Some (M1 c) ->
      exists c', assoc d (cm_coords (p_cm out)) = Some (M1 c') /\ lone_or_unknown c c';
    rl_keep : forall n m, assoc n (cm_coords (p_cm p)) = Some m ->
      (forall d, In d (dims_of (p_cm p) n) -> marked axes (cm_dims (p_cm p)) d -> length_of d p = 1) -> keeps p out n;
    rl_drop : forall n d, ~ marked axes (cm_dims (p_cm p)) n -> In d (dims_of (p_cm p) n) -> marked axes (cm_dims (p_cm p)) d ->
      length_of d p <> 1 -> lacks_coord out n;
    rl_none : forall n, assoc n (cm_coords (p_cm p)) = None -> lacks_coord out n }.

(** The axes a call with [axis] is about; counted from the end when negative. *)
Definition meant (axis : option (list Z)) (ndim k : nat) : Prop :=
  (k < ndim)%nat /\
  match axis with None => True | Some l => exists a, In a l /\ Z.of_nat k = a mod Z.of_nat ndim end.
(** The lengths or places left when the axes listed go. *)
Definition without {B} (axes : list nat) (l : list B) : list B :=
  unmarked (map (fun k => existsb (Nat.eqb k) axes) (seq 0 (List.length l))) l.
