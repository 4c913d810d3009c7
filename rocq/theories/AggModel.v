(** Model of aggregating along dimensions and of numpy functions applied to patches:
    dascore/utils/array.py 253-394 (_apply_aggregator, _reassemble_patch),
    core/coords.py 992-1022 (reduce_coord), utils/patch.py 594-664
    (get_dim_axis_value with dimension names only), 1393-1440
    (swap_kwargs_dim_to_axis). Attributes and units are not modelled. *)
From Verif Require Import Base CoordModel NdModel FrameModel ChunkModel CmModel MergeModel.
From Coq Require Import Strings.String.
Local Open Scope Z_scope.
Local Open Scope list_scope.

(** core/coords.py 992-1022: the dim_reduce argument. A function is given by what it
    makes of the labels. *)
Inductive how := HEmpty | HSqueeze | HFunc (g : list Z -> Z) | HOther.

(** coords.py 808-821 update(data=v) of a scalar v, through update_data (635-655) and
    get_coord (1796-1801): an integer is taken for a length. Reduced times come as
    arrays with one value (105-129). Only functions whose outcome has the type of the
    labels; not labels without values. *)
Definition reduced_label (k : kind) (v : Z) : result coord :=
  match k with
  | KInt => Ok (CPart v)
  | KTime => get_coord_data KTime [v]
  end.
Definition reduce_coord (c : coord) (h : how) : result (option coord) :=
  match h with
  | HEmpty => Ok (Some (if c_len c =? 1 then c else CPart 1))
  | HSqueeze => Ok None
  | HFunc g =>
      match c, c_ints c with
      | CPart _, _ | _, [] => Err Unmodelled
      | _, vs => do c' <- reduced_label (c_kind c) (g vs); Ok (Some c')
      end
  | HOther => Err ParameterError
  end.

(** utils/patch.py 594-664: get_dim_axis_value for names in args. *)
Definition asked_dims (dims args : list string) : result (list string) :=
  if negb (existsb (fun x => mem x args) dims) then Err ParameterError
  else if negb (forallb (fun x => mem x dims) args) then Err PatchCoordinateError
  else Ok (filter (fun x => mem x dims) args).

(** func(data, axis=axis) for a function that makes one element of those along the
    axis. *)
Definition insert_at {B} (l : list B) (k : nat) (x : B) : list B := firstn k l ++ x :: skipn k l.
Definition remove_at {B} (l : list B) (k : nat) : list B := firstn k l ++ skipn (S k) l.
Definition nd_fold {A B} (f : list A -> B) (ax : nat) (a : nd A) : option (nd B) :=
  match nth_error (nd_shape a) ax with
  | None => None
  | Some n =>
      nd_build (remove_at (nd_shape a) ax)
        (fun kx => option_map f (traverse (fun i => nd_get a (insert_at kx ax i)) (zrange n)))
  end.

Section Agg.
Context {A : Type}.
Implicit Types p : patch A.

(** array.py 261-273: one dimension. *)
Definition aggregate_one (f : list A -> A) (h : how) p (d : string) : result (patch A) :=
  do ax <- get_axis (p_cm p) d;
  do c <- dim_coord d (p_cm p);
  do nc <- reduce_coord c h;
  match nd_fold f ax (p_data p) with
  | None => Err IndexError
  | Some a =>
      match nc with
      | None =>
          do x <- drop_coords (p_cm p) [d];
          new_patch (fst x) a
      | Some c' =>
          do cm <- cm_update (p_cm p) [(d, KSimple (VCoord (M1 c')))];
          new_patch cm (mkNd (insert_at (nd_shape a) ax 1) (nd_flat a))
      end
  end.

(** array.py 253-274: _apply_aggregator. *)
Definition aggregate (f : list A -> A) (h : how) (dim : option (list string)) p : result (patch A) :=
  let dims := cm_dims (p_cm p) in
  do ds <- asked_dims dims (match dim with None => dims | Some l => l end);
  if match h with HSqueeze => forallb (fun x => mem x ds) dims | _ => false end
  then Err ParameterError
  else fold_left (fun acc d => do q <- acc; aggregate_one f h q d) ds (Ok p).

(** array.py 299-321: _normalize_axes. *)
Definition normal_axes (axis : option (list Z)) (ndim : nat) : list nat :=
  match axis with
  | None => seq 0 ndim
  | Some l => rev (nodup Nat.eq_dec (rev (map (fun a => Z.to_nat (a mod Z.of_nat ndim)) l)))
  end.
(** array.py 340-345 and 374: result[inds]. Axes the index does not mention stay at
    the end. *)
Fixpoint reexpand (marks : list bool) (s : list Z) : result (list Z) :=
  match marks with
  | [] => Ok s
  | true :: m => do r <- reexpand m s; Ok (1 :: r)
  | false :: m => match s with
                  | [] => Err IndexError
                  | n :: s' => do r <- reexpand m s'; Ok (n :: r)
                  end
  end.
Definition marks (axes : list nat) (ndim : nat) : list bool :=
  map (fun k => existsb (Nat.eqb k) axes) (seq 0 ndim).

(** array.py 350-385: _reassemble_patch for the outcome of a function whose signature
    has no axis ([None]) or has one, with the value it was called with or its
    default. *)
Definition reassemble (r : nd A) (axis : option (option (list Z))) p : result (patch A) :=
  if zlist_eqb (nd_shape r) (nd_shape (p_data p)) then new_patch (p_cm p) r
  else
    match axis with
    | None => Err ParameterError
    | Some ax =>
        let dims := cm_dims (p_cm p) in
        let axes := normal_axes ax (List.length dims) in
        do s <- reexpand (marks axes (List.length dims)) (nd_shape r);
        do names <- map_result (fun k => match nth_error dims k with Some d => Ok d | None => Err IndexError end) axes;
        do kw <- map_result (fun d =>
            do c <- dim_coord d (p_cm p);
            do nc <- reduce_coord c HEmpty;
            match nc with Some c' => Ok (d, KSimple (VCoord (M1 c'))) | None => Err Unmodelled end) names;
        do cm <- cm_update (p_cm p) kw;
        new_patch cm (mkNd s (nd_flat r))
    end.

(** utils/patch.py 1393-1440: swap_kwargs_dim_to_axis. One name gives an integer,
    several give a list; numpy takes integers and tuples only. *)
Inductive dimarg := DNone | DName (d : string) | DNames (l : list string).
Inductive axisarg := AUnset | AInt (z : Z) | AList (l : list Z).
Definition swap_dim (dims : list string) (d : dimarg) : result axisarg :=
  let axis x := match index_of x dims with Some k => Ok (Z.of_nat k) | None => Err ParameterError end in
  match d with
  | DNone => Ok AUnset
  | DName x => do k <- axis x; Ok (AInt k)
  | DNames l => do ks <- map_result axis l; Ok (AList ks)
  end.

(** array.py 388-415 for ufunc.reduce, whose axis is 0 by default: numpy's reduction
    with an addition given by what it makes of the elements. *)
Definition ufunc_reduce (f : list A -> A) (d : dimarg) p : result (patch A) :=
  do ax <- swap_dim (cm_dims (p_cm p)) d;
  match ax with
  | AList _ => Err TypeError
  | AUnset | AInt _ =>
      let k := match ax with AInt z => z | _ => 0 end in
      match nd_fold f (Z.to_nat k) (p_data p) with
      | Some r => reassemble r (Some (Some [k])) p
      | None => Err IndexError
      end
  end.
End Agg.
