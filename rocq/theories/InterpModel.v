(** Model of interpolate (dascore/proc/resample.py) with kind="linear".

    Simplifications: labels and samples are integers of one kind (see CoordModel.v), data are
    exact rationals without NaN; scipy's interp1d is modelled for labels that are all
    different and at least two; units are left out. *)
From Verif Require Import Base CoordModel NdModel FrameModel CmModel MoveModel.
From Coq Require Import Strings.String QArith.
Local Open Scope Z_scope.
Local Open Scope list_scope.

(** As [along], for lines of another length. *)
Definition along_to {A B} (f : list A -> list B) (m : Z) (ax : nat) (a : nd A) : option (nd B) :=
  match nth_error (nd_shape a) ax with
  | None => None
  | Some n =>
      nd_build (put (nd_shape a) ax m) (fun ix =>
        match nth_error ix ax, traverse (fun k => nd_get a (put ix ax k)) (zrange n) with
        | Some i, Some vs => znth (f vs) i
        | _, _ => None
        end)
  end.

(** interp1d sorts labels and values by the labels. *)
Fixpoint insert_pair (p : Z * Q) (l : list (Z * Q)) : list (Z * Q) :=
  match l with
  | [] => [p]
  | q :: t => if fst p <=? fst q then p :: l else q :: insert_pair p t
  end.
Fixpoint sort_pairs (l : list (Z * Q)) : list (Z * Q) :=
  match l with [] => [] | p :: t => insert_pair p (sort_pairs t) end.
(** searchsorted (left) clipped to 1 and n - 1: the first two neighbours whose upper one is
    not below [x], the last two if there are none. *)
Fixpoint segment (s : list (Z * Q)) (x : Z) : option ((Z * Q) * (Z * Q)) :=
  match s with
  | p :: (q :: r) as t =>
      match r with
      | [] => Some (p, q)
      | _ => if x <=? fst q then Some (p, q) else segment t x
      end
  | _ => None
  end.
(** interp1d._call_linear; fill_value="extrapolate" goes on outside. *)
Definition value_at (s : list (Z * Q)) (x : Z) : Q :=
  match segment s x with
  | Some ((a, ya), (b, yb)) => ((yb - ya) / inject_Z (b - a) * inject_Z (x - a) + ya)%Q
  | None => 0%Q
  end.
Definition interp_line (v w : list Z) (f : list Q) : list Q := map (value_at (sort_pairs (combine v f))) w.
Fixpoint distinct (v : list Z) : bool :=
  match v with [] => true | x :: t => (negb (existsb (Z.eqb x) t) && distinct t)%bool end.
Definition kind_of (c : coord) : option kind :=
  match c with CRange r => Some (r_kind r) | CMono k _ | CArr k _ => Some k | CPart _ => None end.
(** resample.py 98-155; [None] for the samples asks for evenly sampled labels. The keyword
    has to be a dimension (get_dim_axis_value, utils/patch.py 654-679). *)
Definition pt_interpolate (dim : string) (samples : option (list Z)) (p : patch Q) : result (patch Q) :=
  match index_of dim (cm_dims (p_cm p)) with
  | None => Err ParameterError
  | Some ax =>
      match assoc dim (cm_coords (p_cm p)), assoc dim (cm_dmap (p_cm p)) with
      | Some (M1 c), Some ds =>
          match kind_of c with
          | None => Err Unmodelled
          | Some k =>
              do w <- match samples with
                      | Some w => Ok w
                      | None => do o <- m_snap (M1 c); Ok (match o with Some c' => c_ints c' | None => c_ints c end)
                      end;
              let v := c_ints c in
              if ((2 <=? zlen v) && distinct v)%bool then
                do b <- opt_result (along_to (interp_line v w) (zlen w) ax (p_data p));
                do c' <- get_coord_data k w;
                do cm' <- cm_update (p_cm p) [(dim, KTuple ds (VCoord (M1 c')))];
                new_patch cm' b
              else Err Unmodelled
          end
      | _, _ => Err KeyError
      end
  end.
