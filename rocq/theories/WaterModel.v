(** Model of waterfall plots (viz/waterfall.py, _get_extents of utils/plotting.py,
    tukey_fence of utils/misc.py): what is handed to matplotlib and the color limits.

    Simplifications: labels and data are exact rationals, times in seconds (matplotlib's
    days are the same scale); colors, axis texts and the color bar are left out; the
    scale is given as fractions (percentages are converted before), data without any
    finite value is left out. *)
From Verif Require Import Base CoordModel NdModel FrameModel CmModel CalcModel MoveModel MuteModel EdgeModel.
From Coq Require Import Strings.String QArith Qabs.
Local Open Scope Z_scope.
Local Open Scope list_scope.

(** ** Gaps *)

(** waterfall.py 177-179: where the rows go. [skipped] is the number of gaps so far. *)
Fixpoint new_indices (i skipped : Z) (gs : list bool) : list Z :=
  (i + skipped) :: match gs with
                   | [] => []
                   | g :: t => new_indices (i + 1) (skipped + (if g then 1 else 0)) t
                   end.
Fixpoint find_pos (x k : Z) (l : list Z) : option Z :=
  match l with
  | [] => None
  | y :: t => if x =? y then Some k else find_pos x (k + 1) t
  end.
(** waterfall.py 168-183: _insert_gap_bands; masked elements are [None]. *)
Definition insert_bands {A} (a : nd (option A)) (gs : list bool) (ax : nat) : option (nd (option A)) :=
  if negb (existsb id gs) then Some a
  else match nth_error (nd_shape a) ax with
       | None => None
       | Some n =>
           let count := zlen (filter id gs) in
           let ix_of := new_indices 0 0 gs in
           nd_build (put (nd_shape a) ax (n + count)) (fun ix =>
             match nth_error ix ax with
             | None => None
             | Some i => match find_pos i 0 ix_of with
                         | Some k => nd_get a (put ix ax k)
                         | None => Some None
                         end
             end)
       end.

(** What is drawn: an image over extents (of the second dimension, then of the first), or
    a mesh: edges of the second dimension, edges of the first, and the data. *)
Inductive drawing (A : Type) :=
  | Image (xmin xmax ymin ymax : Q) (a : nd A)
  | Mesh (xs ys : list Q) (a : nd (option A)).
Arguments Image {A}. Arguments Mesh {A}.

(** waterfall.py 186-209: _plot_with_mesh; [colored] tells whether there is a gap color.
    The labels are those of the two dimensions, each with a flag for datetimes. *)
Definition plot_with_mesh {A} (a : nd A) (y x : bool * list Q) (colored : bool) (gap_factor : Q) : result (drawing A) :=
  let factor := if colored then Some gap_factor else None in
  let md := nd_map Some a in
  do ey <- gap_edges (fst y) (snd y) factor;
  do md <- (if colored then opt_result (insert_bands md (snd ey) 0) else Ok md);
  do ex <- gap_edges (fst x) (snd x) factor;
  do md <- (if colored then opt_result (insert_bands md (snd ex) 1) else Ok md);
  Ok (Mesh (fst ex) (fst ey) md).

(** plotting.py 43-88: _get_extents of one dimension: smallest and largest label, or
    positions when there are none. *)
Definition extent (labels : list (option Q)) : Q * Q :=
  match flat_map (fun v => match v with Some q => [q] | None => [] end) labels with
  | [] => (0%Q, inject_Z (zlen labels - 1))
  | l => (qleast l, qgreatest l)
  end.
(** Labels of a coordinate: evenly sampled, datetimes, values. *)
Definition labels_of (m : mcoord) : option (bool * bool * list (option Q)) :=
  match m with
  | M1 c =>
      let even := match c with CRange _ => true | _ => false end in
      let time := match c with CRange r => match r_kind r with KTime => true | KInt => false end
                             | CMono KTime _ | CArr KTime _ => true
                             | _ => false end in
      Some (even, time, map (option_map (fun z => if time then z # 1000000000 else inject_Z z)) (c_values c))
  | _ => None
  end.
(** waterfall.py 36-40: _validate_gap_factor; a factor that is not finite is [None]. *)
Definition gap_factor_ok (f : option Q) : result Q :=
  match f with
  | Some k => if Qle_bool k 1 then Err ParameterError else Ok k
  | None => Err ParameterError
  end.
(** waterfall.py 43-55: _validate_patch_dims. *)
Definition two_dims {A} (p : patch A) : result (patch A) :=
  if zlen (cm_dims (p_cm p)) =? 2 then Ok p
  else do q <- pt_squeeze p None;
       if zlen (cm_dims (p_cm q)) =? 2 then Ok q else Err ParameterError.
(** waterfall.py 353-390: the choice between image and mesh. *)
Definition waterfall {A} (p : patch A) (colored : bool) (gap_factor : option Q) : result (drawing A) :=
  do p <- two_dims p;
  do f <- gap_factor_ok gap_factor;
  match cm_dims (p_cm p) with
  | [d0; d1] =>
      match assoc d0 (cm_coords (p_cm p)), assoc d1 (cm_coords (p_cm p)) with
      | Some m0, Some m1 =>
          match labels_of m0, labels_of m1 with
          | Some (e0, t0, l0), Some (e1, t1, l1) =>
              if (e0 && e1) || negb (monotonic_and_finite l0 && monotonic_and_finite l1)
              then let '(xmin, xmax) := extent l1 in
                   let '(ymin, ymax) := extent l0 in
                   Ok (Image xmin xmax ymin ymax (p_data p))
              else match traverse id l0, traverse id l1 with
                   | Some v0, Some v1 => plot_with_mesh (p_data p) (t0, v0) (t1, v1) colored f
                   | _, _ => Err Unmodelled
                   end
          | _, _ => Err Unmodelled
          end
      | _, _ => Err KeyError
      end
  | _ => Err ParameterError
  end.

(** ** Color limits *)

(** np.nanpercentile, linear: [num]/4 of the way through the sorted values. *)
Definition quartile (l : list Q) (num : Z) : Q :=
  let s := qsort l in
  let h := (zlen l - 1) * num in
  let lo := at_ s (h / 4) in
  let hi := at_ s (Z.min (h / 4 + 1) (zlen l - 1)) in
  (lo + (h mod 4 # 4) * (hi - lo))%Q.
Definition qmax (a b : Q) : Q := if Qle_bool a b then b else a.
Definition qmin (a b : Q) : Q := if Qle_bool a b then a else b.
(** misc.py 911-921: tukey_fence. *)
Definition tukey_fence (l : list Q) : list Q :=
  let q1 := quartile l 1 in
  let q3 := quartile l 3 in
  let diff := (q3 - q1)%Q in
  [qmax (q1 - diff * (3 # 2)) (qleast l); qmin (q3 + diff * (3 # 2)) (qgreatest l)]%Q.
(** waterfall.py 28-33 and 58-109: _validate_scale_type and _get_scale. *)
Definition get_scale (scale : list Q) (scale_type : string) (l : list Q) : result (list Q) :=
  if negb (mem scale_type ["absolute"; "relative"]%string) then Err ParameterError
  else if String.eqb scale_type "relative" then
    match scale with
    | [s] =>
        if Qeq_bool s 0 then Err ParameterError
        else let md := ((1 # 2) * (qgreatest l - qleast l))%Q in
             let md := if Qeq_bool md 0 then (1 # 10000000000)%Q else md in
             Ok [qmean l - s * md; qmean l + s * md]%Q
    | [] => Ok (tukey_fence l)
    | [s0; s1] =>
        if Qltb s0 0 || Qltb s1 0 || Qltb s1 s0 then Err ParameterError
        else let range := (qgreatest l - qleast l)%Q in
             Ok [qleast l + s0 * range; qleast l + s1 * range]%Q
    | _ => Err ParameterError
    end
  else match scale with
       | [s] => Ok [- Qabs s; Qabs s]%Q
       | _ => Ok scale
       end.
