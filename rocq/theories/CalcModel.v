(** Model of derivatives and integrals along dimensions: dascore/transform/
    differentiate.py (order 2, which is np.gradient; other orders need another
    package), transform/integrate.py, transform/strain.py 17-198, and
    _get_dx_or_spacing_and_axes of utils/patch.py 902-937.

    Floats are exact rationals; labels become rationals as in MuteModel.to_fl. [ints]
    says that the data are integers: arrays made by empty_like and zeros_like then hold
    integers, and storing a float in them cuts it towards zero. Units are not
    modelled, nor warnings. *)
From Verif Require Import Base CoordModel NdModel FrameModel ChunkModel CmModel MergeModel AggModel MuteModel.
From Coq Require Import Strings.String QArith.
Local Open Scope Z_scope.
Local Open Scope list_scope.

(** ** Spacing *)

(** A step or the labels. *)
Inductive spacing := Even (h : Q) | Labels (xs : list Q).
(** utils/patch.py 902-937 for one name, with get_coord (proc/coords.py 142-154). *)
Definition get_spacing (cm : cman) (d : string) : result (spacing * nat) :=
  match assoc d (cm_coords cm) with
  | Some (M1 c) =>
      if c_sorted c || c_reverse_sorted c
      then do ax <- get_axis cm d;
           Ok (match c with
               | CRange r => Even (to_fl c (r_step r))
               | _ => Labels (map (to_fl c) (c_ints c))
               end, ax)
      else Err CoordError
  | _ => Err CoordError
  end.

(** A float stored in an array like that of the data. *)
Definition store (ints : bool) (q : Q) : Q := if ints then inject_Z (Z.quot (Qnum q) (QDen q)) else q.

(** ** Lines *)
Definition at_ (l : list Q) (i : Z) : Q := match znth l i with Some q => q | None => 0%Q end.
Definition qdiffs (xs : list Q) : list Q := map (fun i => at_ xs (i + 1) - at_ xs i)%Q (zrange (zlen xs - 1)).

(** The array whose lines along an axis are what [f] makes of those of [a]; [f] also
    gets the place of the element. *)
Definition nd_lines (f : list Z -> list Q -> list Q) (ax : nat) (a : nd Q) : option (nd Q) :=
  match nth_error (nd_shape a) ax with
  | None => None
  | Some n =>
      nd_build (nd_shape a) (fun ix =>
        match nth_error ix ax, traverse (fun k => nd_get a (put ix ax k)) (zrange n) with
        | Some i, Some vs => znth (f ix vs) i
        | _, _ => None
        end)
  end.

(** ** Derivative *)

(** np.gradient(f, h, edge_order=2) of a line; h is a number. *)
Definition grad_even (h : Q) (f : list Q) : list Q :=
  let n := zlen f in
  map (fun i =>
    if i =? 0 then ((- (3 # 2) / h) * at_ f 0 + (2 / h) * at_ f 1 + (- (1 # 2) / h) * at_ f 2)%Q
    else if i =? n - 1
    then (((1 # 2) / h) * at_ f (n - 3) + (- (2) / h) * at_ f (n - 2) + ((3 # 2) / h) * at_ f (n - 1))%Q
    else ((at_ f (i + 1) - at_ f (i - 1)) / (2 * h))%Q) (zrange n).
(** ... and with the array of labels whose differences are [dx]. *)
Definition grad_labels (dx : list Q) (f : list Q) : list Q :=
  let n := zlen f in
  map (fun i =>
    if i =? 0 then
      let a := at_ dx 0 in let b := at_ dx 1 in
      ((- (2 * a + b) / (a * (a + b))) * at_ f 0 + ((a + b) / (a * b)) * at_ f 1 + (- a / (b * (a + b))) * at_ f 2)%Q
    else if i =? n - 1 then
      let a := at_ dx (n - 3) in let b := at_ dx (n - 2) in
      ((b / (a * (a + b))) * at_ f (n - 3) + (- (b + a) / (a * b)) * at_ f (n - 2) + ((2 * b + a) / (b * (a + b))) * at_ f (n - 1))%Q
    else
      let a := at_ dx (i - 1) in let b := at_ dx i in
      ((- b / (a * (a + b))) * at_ f (i - 1) + ((b - a) / (a * b)) * at_ f i + (a / (b * (a + b))) * at_ f (i + 1))%Q)
    (zrange n).
(** Differences that are all the same count as a number. *)
Definition gradient (sp : spacing) (f : list Q) : list Q :=
  match sp with
  | Even h => grad_even h f
  | Labels xs =>
      let dx := qdiffs xs in
      if forallb (Qeq_bool (at_ dx 0)) dx then grad_even (at_ dx 0) f else grad_labels dx f
  end.

(** differentiate.py 21-26: _grad_diff for one axis; np.gradient wants three elements. *)
Definition grad_axis (a : nd Q) (e : spacing * nat) : result (nd Q) :=
  match nth_error (nd_shape a) (snd e) with
  | None => Err IndexError
  | Some n =>
      if n <? 3 then Err ValueError
      else match nd_lines (fun _ => gradient (fst e)) (snd e) a with Some b => Ok b | None => Err IndexError end
  end.

(** l[r::s] *)
Definition every (r s : Z) (l : list Q) : list Q :=
  map (at_ l) (filter (fun i => i mod s =? r) (zrange (zlen l))).
Definition every_spacing (r s : Z) (sp : spacing) : spacing :=
  match sp with Even h => Even (h * inject_Z s)%Q | Labels xs => Labels (every r s xs) end.
(** differentiate.py 52-70: _strided_diff. Element i comes from the slice i mod step,
    where it is at i / step. *)
Definition strided (ints : bool) (s : Z) (sp : spacing) (f : list Q) : list Q :=
  map (fun i => store ints (at_ (gradient (every_spacing (i mod s) s sp) (every (i mod s) s f)) (i / s))) (zrange (zlen f)).
Definition strided_diff (ints : bool) (s : Z) (a : nd Q) (l : list (spacing * nat)) : result (nd Q) :=
  match l with
  | [] => Err IndexError
  | [(sp, ax)] =>
      match nth_error (nd_shape a) ax with
      | None => Err IndexError
      | Some n =>
          if existsb (fun r => zlen (filter (fun i => i mod s =? r) (zrange n)) <? 3) (zrange s) then Err ValueError
          else match nd_lines (fun _ => strided ints s sp) ax a with Some b => Ok b | None => Err IndexError end
      end
  | _ => Err ParameterError
  end.

Definition asked (cm : cman) (dim : option (list string)) : list string :=
  match dim with Some l => l | None => cm_dims cm end.
(** differentiate.py 73-146. *)
Definition pt_differentiate (ints : bool) (dim : option (list string)) (step : Z) (p : patch Q) : result (patch Q) :=
  do l <- map_result (get_spacing (p_cm p)) (asked (p_cm p) dim);
  do a <- (if 1 <? step then strided_diff ints step (p_data p) l
           else fold_left (fun acc e => do a <- acc; grad_axis a e) l (Ok (p_data p)));
  Ok (mkPatch (p_cm p) a).

(** ** Integral *)

(** The width of the interval j as the code multiplies it with the mean: the array of
    widths is not reshaped, so it is counted along the last axis (integrate.py 77), and
    a single width counts for all. *)
Definition width (sp : spacing) (last : bool) (ix : list Z) (j : Z) : Q :=
  match sp with
  | Even h => h
  | Labels xs =>
      let dx := qdiffs xs in
      at_ dx (if zlen dx =? 1 then 0 else if last then j else List.last ix 0)
  end.
Definition broadcasts (sp : spacing) (last : bool) (s : list Z) : bool :=
  match sp with
  | Even _ => true
  | Labels xs => last || (zlen xs - 1 =? 1) || (zlen xs - 1 =? List.last s 0)
  end.
Fixpoint cumsum (from : Q) (l : list Q) : list Q :=
  match l with [] => [] | x :: t => (from + x)%Q :: cumsum (from + x)%Q t end.
Definition areas (w : Z -> Q) (f : list Q) : list Q :=
  map (fun j => (at_ f (j + 1) + at_ f j) * (w j / 2))%Q (zrange (zlen f - 1)).
(** integrate.py 61-80: _get_indefinite_integral for one axis. *)
Definition cum_axis (ints : bool) (a : nd Q) (e : spacing * nat) : result (nd Q) :=
  let last := Nat.eqb (S (snd e)) (List.length (nd_shape a)) in
  if negb (broadcasts (fst e) last (nd_shape a)) then Err ValueError
  else match nd_lines (fun ix f => 0%Q :: map (store ints) (cumsum 0 (areas (width (fst e) last ix) f))) (snd e) a with
       | Some b => Ok b
       | None => Err IndexError
       end.

(** np.trapezoid of a line; the widths are along the right axis. *)
Definition trapezoid (sp : spacing) (f : list Q) : Q :=
  fold_right Qplus 0%Q (areas (width sp true []) f).
Definition trap_axis (a : nd Q) (e : spacing * nat) : result (nd Q) :=
  match nd_fold (trapezoid (fst e)) (snd e) a with
  | Some b => Ok (mkNd (insert_at (nd_shape b) (snd e) 1) (nd_flat b))
  | None => Err IndexError
  end.
(** integrate.py 22-29: _quasi_mean, cut towards zero to the type of the labels. The
    mean of times is exact here, in floats it is not. *)
Definition quasi_mean (v : list Z) : Z := Z.quot (total v) (zlen v).
Fixpoint list_min (x : Z) (l : list Z) : Z := match l with [] => x | y :: t => list_min (Z.min x y) t end.
Fixpoint list_max (x : Z) (l : list Z) : Z := match l with [] => x | y :: t => list_max (Z.max x y) t end.
Definition pre_min (d : string) : string := ("pre_integrate_" ++ d ++ "_min")%string.
Definition pre_max (d : string) : string := ("pre_integrate_" ++ d ++ "_max")%string.
(** integrate.py 35-45. *)
Definition mean_kw (cm : cman) (d : string) : result (string * kval) :=
  do c <- dim_coord d cm;
  match c_ints c with
  | [] => Err ValueError
  | v => Ok (d, KSimple (VArr (c_kind c) [quasi_mean v]))
  end.
Definition limit_kw (cm : cman) (d : string) : result (list (string * kval)) :=
  do c <- dim_coord d cm;
  match c_ints c with
  | [] => Err ValueError
  | x :: t => Ok [(pre_min d, KTuple [d] (VArr (c_kind c) [list_min x t]));
                  (pre_max d, KTuple [d] (VArr (c_kind c) [list_max x t]))]
  end.
Definition integrated_coords (cm : cman) (ds : list string) : result cman :=
  do means <- map_result (mean_kw cm) ds;
  do limits <- map_result (limit_kw cm) ds;
  cm_update cm (means ++ List.concat limits).

Fixpoint distinctb (l : list string) : bool :=
  match l with [] => true | x :: t => negb (mem x t) && distinctb t end.
(** integrate.py 84-134. A dimension named twice is not modelled for definite. *)
Definition pt_integrate (ints : bool) (dim : option (list string)) (definite : bool) (p : patch Q) : result (patch Q) :=
  let ds := asked (p_cm p) dim in
  do l <- map_result (get_spacing (p_cm p)) ds;
  if definite
  then if negb (distinctb ds) then Err Unmodelled
       else
         do a <- fold_left (fun acc e => do a <- acc; trap_axis a e) l (Ok (p_data p));
         do cm <- integrated_coords (p_cm p) ds;
         new_patch cm a
  else
    do a <- fold_left (fun acc e => do a <- acc; cum_axis ints a e) l (Ok (p_data p));
    new_patch (p_cm p) a.

(** ** Strain rate *)

(** The requirements of the decorators (utils/patch.py: required_dims and
    required_attrs) and of get_coord, for the dimension distance. *)
Definition velocity_step (data_type : string) (p : patch Q) : result crange :=
  if negb (mem "distance"%string (cm_dims (p_cm p))) then Err PatchCoordinateError
  else if negb (String.eqb data_type "velocity") then Err PatchAttributeError
  else
    match assoc "distance"%string (cm_coords (p_cm p)) with
    | Some (M1 (CRange r)) => Ok r
    | _ => Err CoordError
    end.
(** strain.py 17-116, for order 2; the result is the patch and its gauge length. *)
Definition pt_strain_rate (ints : bool) (data_type : string) (k : Z) (p : patch Q) : result (patch Q * Z) :=
  if negb (mem "distance"%string (cm_dims (p_cm p))) then Err PatchCoordinateError
  else if negb (String.eqb data_type "velocity") then Err PatchAttributeError
  else if k <=? 0 then Err ParameterError
  else if negb (k mod 2 =? 0) then Err ParameterError
  else
    do r <- velocity_step data_type p;
    do q <- pt_differentiate ints (Some ["distance"%string]) (k / 2) p;
    Ok (q, r_step r * k).

(** An array minus another of the same shape, over a number. *)
Definition nd_sub_over (a b : nd Q) (g : Q) : result (nd Q) :=
  if zlist_eqb (nd_shape a) (nd_shape b)
  then match nd_build (nd_shape a) (fun ix => match nd_get a ix, nd_get b ix with
                                              | Some x, Some y => Some ((x - y) / g)%Q
                                              | _, _ => None end) with
       | Some c => Ok c
       | None => Err IndexError
       end
  else Err ValueError.
(** strain.py 119-198, for labels that are no times and whose midpoints are integers. *)
Definition pt_strain_edgeless (data_type : string) (k : Z) (p : patch Q) : result (patch Q * Z) :=
  if negb (mem "distance"%string (cm_dims (p_cm p))) then Err PatchCoordinateError
  else if negb (String.eqb data_type "velocity") then Err PatchAttributeError
  else if k <=? 0 then Err ParameterError
  else
    do r <- velocity_step data_type p;
    do d1 <- pt_select p false true [("distance"%string, SelPair (Some k) None)];
    do d2 <- pt_select p false true [("distance"%string, SelPair None (Some (- k)))];
    do a <- nd_sub_over (p_data d1) (p_data d2) (inject_Z (k * r_step r));
    match r_kind r with
    | KTime => Err Unmodelled
    | KInt =>
        if Z.odd (k * r_step r) then Err Unmodelled
        else
          let v := r_values r in
          let mids := map (fun xy => (fst xy + snd xy) / 2)
                        (combine (skipn (Z.to_nat k) v) (firstn (Z.to_nat (zlen v - k)) v)) in
          do cm <- cm_update (p_cm p) [("distance"%string, KSimple (VArr KInt mids))];
          do q <- new_patch cm a;
          Ok (q, r_step r * k)
    end.
