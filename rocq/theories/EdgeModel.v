(** Model of the cell edges of utils/gaps.py, of the checks of the arguments of
    pass_filter and notch_filter and of the mask of slope_filter (proc/filter.py,
    utils/misc.py, utils/patch.py).

    Simplifications: labels and bounds are exact rationals (times in seconds), so numpy's
    rounding of half nanoseconds is not modelled; the filters themselves are not
    modelled, only what is handed to scipy; NaN and infinite labels are [None]. *)
From Verif Require Import Base CoordModel NdModel FrameModel CmModel CalcModel MoveModel MuteModel UnitsModel.
From Coq Require Import Strings.String QArith Qabs.
Local Open Scope Z_scope.
Local Open Scope list_scope.

(** ** gaps.py *)

(** gaps.py 31 and 70: np.diff. *)
Fixpoint diffs (l : list Q) : list Q :=
  match l with
  | x :: ((y :: _) as t) => (y - x)%Q :: diffs t
  | _ => []
  end.
(** gaps.py 26-32: is_monotonic_and_finite; labels that are not finite are [None]. *)
Definition monotonic_and_finite (values : list (option Q)) : bool :=
  match traverse id values with
  | None => false
  | Some l => let ds := diffs l in
              (zlen ds =? 0) || forallb (fun d => Qltb 0 d) ds || forallb (fun d => Qltb d 0) ds
  end.
(** gaps.py 72-75: which intervals are gaps. *)
Definition gap_mask (ds : list Q) (factor : option Q) : list bool :=
  match factor with
  | None => map (fun _ => false) ds
  | Some f => map (fun d => Qltb (bn_median (map Qabs ds) * f) (Qabs d)) ds
  end.
(** gaps.py 93-102: the body of the loop, from the second edge on. *)
Fixpoint inner_edges (values : list Q) (mask : list bool) (step : Q) : list Q :=
  match values, mask with
  | x :: ((y :: _) as t), g :: ms =>
      (if g then [x + step / 2; y - step / 2] else [x + (y - x) / 2])%Q ++ inner_edges t ms step
  | _, _ => []
  end.
(** gaps.py 35-104: get_gap_edges; [datetime] tells whether the labels are times (then a
    single label gets a day). *)
Definition gap_edges (datetime : bool) (values : list Q) (factor : option Q) : result (list Q * list bool) :=
  match values with
  | [] => Err IndexError
  | [x] => let step := if datetime then 86400%Q else 1%Q in Ok ([(x - step / 2)%Q; (x + step / 2)%Q], [])
  | x :: _ =>
      let ds := diffs values in
      let mask := gap_mask ds factor in
      let first := at_ ds 0 in
      let last := at_ ds (zlen ds - 1) in
      let x' := at_ values (zlen values - 1) in
      if negb (existsb id mask)
      then Ok ((x - first / 2)%Q :: map (fun e => fst e + snd e / 2)%Q (combine values ds) ++ [(x' + last / 2)%Q], mask)
      else
        let med := bn_median (map Qabs ds) in
        let signed := if Qltb 0 first then med else (- med)%Q in
        let first_step := match mask with true :: _ => signed | _ => first end in
        let last_step := if List.last mask false then signed else last in
        Ok ((x - first_step / 2)%Q :: inner_edges values mask signed ++ [(x' + last_step / 2)%Q], mask)
  end.

(** ** Arguments of filters *)

(** An end of a filter range: the dots, or None, a number or a quantity. *)
Inductive fbound := BDots | BArg (a : farg).
(** misc.py 603-617: the dots do not count as missing. *)
Definition is_null (b : fbound) : bool := match b with BArg FNone => true | _ => false end.
(** units.py 340-341. *)
Definition farg_of (b : fbound) : farg := match b with BDots => FNone | BArg a => a end.
(** misc.py 603-627: check_filter_sequence and check_filter_kwargs. *)
Definition check_kwargs (kw : list (string * list fbound)) : result (string * (fbound * fbound)) :=
  match kw with
  | [(d, [a; b])] => if is_null a && is_null b then Err FilterValueError else Ok (d, (a, b))
  | _ => Err FilterValueError
  end.
(** misc.py 630-644: check_filter_range. *)
Definition outside (x : option Q) : bool :=
  match x with Some v => Qltb v 0 || Qltb 1 v | None => false end.
Definition check_range (low high : option Q) : result Datatypes.unit :=
  if outside low then Err FilterValueError
  else if outside high then Err FilterValueError
  else match low, high with
       | Some l, Some h => if Qle_bool h l then Err FilterValueError else Ok tt
       | _, _ => Ok tt
       end.
(** patch.py 681-709: get_dim_sampling_rate: the step of the coordinate in seconds or
    other units; coordinates without a step are refused. *)
Definition sampling_rate (m : mcoord) : result Q :=
  match m with
  | M1 (CRange r) => Ok (1 / (match r_kind r with KTime => r_step r # 1000000000 | KInt => inject_Z (r_step r) end))%Q
  | M1 (CPart _) => Err Unmodelled
  | _ => Err CoordDataError
  end.
(** What scipy is asked for, relative to the Nyquist frequency. *)
Inductive design := Band (low high : Q) | High (low : Q) | Low (high : Q).
(** scipy.signal.iirfilter: digital filters need 0 < Wn < 1. *)
Definition inner (x : Q) : bool := Qltb 0 x && Qltb x 1.
Definition iir (d : design) : result design :=
  if match d with Band l h => inner l && inner h | High l => inner l | Low h => inner h end then Ok d else Err ValueError.
(** filter.py 81-101: _get_sos. *)
Definition get_sos (sr : Q) (filt_min filt_max : option Q) : result design :=
  let nyquist := ((1 # 2) * sr)%Q in
  let low := option_map (fun x => x / nyquist)%Q filt_min in
  let high := option_map (fun x => x / nyquist)%Q filt_max in
  do _ <- check_range low high;
  match low, high with
  | Some l, Some h => iir (Band l h)
  | Some l, None => iir (High l)
  | None, Some h => iir (Low h)
  | None, None => Err AssertionError
  end.
(** filter.py 104-149: pass_filter up to the design of the filter; the axis and the
    design. [units] is the unit of the coordinate. *)
Definition pt_pass_filter {A} (units : option unit) (kw : list (string * list fbound)) (p : patch A) : result (nat * design) :=
  do e <- check_kwargs kw;
  let '(d, (a, b)) := e in
  match index_of d (cm_dims (p_cm p)), assoc d (cm_coords (p_cm p)) with
  | None, _ => Err CoordError
  | Some _, None => Err KeyError
  | Some ax, Some m =>
      do f <- filter_units (farg_of a) (farg_of b) units;
      do sr <- sampling_rate m;
      do s <- get_sos sr (fst f) (snd f);
      Ok (ax, s)
  end.
(** filter.py 320-333: one turn of the loop of notch_filter; the value is a plain number
    or a quantity. What is handed to iirnotch is relative to the Nyquist frequency;
    iirnotch refuses what is not from 0 to 1. *)
Definition notch_one (cm : cman) (units : string -> option unit) (e : string * farg) : result (nat * Q) :=
  match index_of (fst e) (cm_dims cm), assoc (fst e) (cm_coords cm) with
  | Some ax, Some m =>
      do w0 <- match snd e, units (fst e) with
               | FQuant q, Some u => do r <- inverted_quant (Some q) u;
                                     match fst r with Some x => Ok x | None => Err TypeError end
               | FQuant q, None => Ok (q_mag q)
               | FNum x, _ => Ok x
               | FNone, _ => Err Unmodelled
               end;
      do sr <- sampling_rate m;
      if Qltb ((1 # 2) * sr) w0 then Err FilterValueError
      else let w := (2 * w0 / sr)%Q in
           if Qltb 1 w || Qltb w 0 then Err ValueError else Ok (ax, w)
  | _, _ => Err KeyError
  end.
(** filter.py 270-334: notch_filter: the filters that are applied, in turn. *)
Definition pt_notch_filter {A} (units : string -> option unit) (kw : list (string * farg)) (p : patch A) : result (list (nat * Q)) :=
  do l <- named_dims (cm_dims (p_cm p)) kw;
  (fix loop (l : list (string * farg)) : result (list (nat * Q)) :=
     match l with
     | [] => Ok []
     | e :: t => do x <- notch_one (p_cm p) units e; do xs <- loop t; Ok (x :: xs)
     end) l.

(** ** The mask of slope_filter *)

(** The slopes given: an array, or a list or tuple, which python compares as a whole. *)
Inductive slopes := SArray (l : list Q) | SSeq (l : list Q).
Definition slopes_of (s : slopes) : list Q := match s with SArray l | SSeq l => l end.
(** Elementwise and lexicographic [<=]. *)
Fixpoint all_le (l m : list Q) : bool :=
  match l, m with
  | x :: l', y :: m' => Qle_bool x y && all_le l' m'
  | _, _ => true
  end.
Fixpoint lex_le (l m : list Q) : bool :=
  match l, m with
  | [], _ => true
  | _ :: _, [] => false
  | x :: l', y :: m' => if Qeq_bool x y then lex_le l' m' else Qle_bool x y
  end.
(** filter.py 550-558: _check_inputs; the names are those of all coordinates. *)
Definition check_slopes (names : list string) (dims : string * string) (s : slopes) : result (Q * Q * Q * Q) :=
  let l := slopes_of s in
  let sorted := match s with
                | SArray _ => all_le (removelast l) (tl l)
                | SSeq _ => lex_le (removelast l) (tl l)
                end in
  match l with
  | [a; b; c; d] =>
      if negb sorted then Err ParameterError
      else if mem (fst dims) names && mem (snd dims) names then Ok (a, b, c, d)
      else Err ParameterError
  | _ => Err ParameterError
  end.
(** filter.py 576-591: _get_slope_array: the frequency of the second dimension over that
    of the first, which is shifted by the machine epsilon. [None] is not finite. *)
Definition epsilon : Q := 1 # (2 ^ 52).
Definition slope_at (directional : bool) (f k : Q) : option Q :=
  if Qeq_bool (k + epsilon) 0 then None
  else let s := (f / (k + epsilon))%Q in Some (if directional then s else Qabs s).
(** filter.py 560-574: _get_taper_mask; [ramp x] is sin(pi x / 2), [None] is NaN. *)
Section Mask.
Context (ramp : Q -> Q).
Definition ramp_over (s a b : Q) : option Q := if Qeq_bool (b - a) 0 then None else Some (ramp ((s - a) / (b - a))%Q).
Definition within (s a b : Q) : bool := Qle_bool a s && Qle_bool s b.
Definition mask_of (invert : bool) (filt : Q * Q * Q * Q) (s : option Q) : option Q :=
  let '(a, b, c, d) := filt in
  let fac :=
    match s with
    | None => Some 1%Q
    | Some s =>
        let fac := if within s a b then option_map (fun x => 1 - x)%Q (ramp_over s a b) else Some 1%Q in
        let fac := if within s b c then Some 0%Q else fac in
        if within s c d then ramp_over s c d else fac
    end in
  if invert then fac else option_map (fun x => 1 - x)%Q fac.
(** filter.py 621-640 for a patch that is transformed already: every element is
    multiplied by the mask at its frequencies. [fs], [ks] are the labels of the two
    transformed dimensions. *)
Definition masked (invert directional : bool) (filt : Q * Q * Q * Q) (fs ks : list Q) (af ak : nat) (a : nd Q) : option (nd (option Q)) :=
  nd_build (nd_shape a) (fun ix =>
    match nth_error ix af, nth_error ix ak, nd_get a ix with
    | Some i, Some j, Some x =>
        match znth fs i, znth ks j with
        | Some f, Some k => Some (option_map (fun m => x * m)%Q (mask_of invert filt (slope_at directional f k)))
        | _, _ => None
        end
    | _, _, _ => None
    end).
End Mask.
