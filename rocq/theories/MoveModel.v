(** Model of moving windows and the filters made of them: dascore/utils/moving.py,
    dascore/proc/hampel.py, sobel_filter, median_filter, savgol_filter and
    gaussian_filter of dascore/proc/filter.py, and get_patch_window_size
    (utils/patch.py 712-797).

    Floats are exact rationals and data has no NaN; None stands for the NaN that
    bottleneck puts where a window has too few samples. The functions of scipy.ndimage
    and bottleneck are written out from their documentation. Not modelled: complex
    data, negative axes, the overflow of small integers, warnings, window lengths that
    are no integers (percentages, units). *)
From Verif Require Import Base CoordModel NdModel FrameModel ChunkModel CmModel ProcModel MuteModel CalcModel.
From Coq Require Import Strings.String QArith Qabs.
Local Open Scope Z_scope.
Local Open Scope list_scope.

(** ** Lines *)

(** The array whose lines along an axis are what [f] makes of those of [a]. *)
Definition along {A B} (f : list A -> list B) (ax : nat) (a : nd A) : option (nd B) :=
  match nth_error (nd_shape a) ax with
  | None => None
  | Some n =>
      nd_build (nd_shape a) (fun ix =>
        match nth_error ix ax, traverse (fun k => nd_get a (put ix ax k)) (zrange n) with
        | Some i, Some vs => znth (f vs) i
        | _, _ => None
        end)
  end.
Definition opt_result {A} (o : option A) : result A := match o with Some x => Ok x | None => Err IndexError end.

(** The modes of scipy.ndimage. *)
Inductive bmode := MReflect | MConstant | MNearest | MMirror | MWrap.
(** Which element of a line of [n] stands at [i]; None is the constant. *)
Definition border (md : bmode) (n i : Z) : option Z :=
  match md with
  | MReflect => let r := i mod (2 * n) in Some (if r <? n then r else 2 * n - 1 - r)
  | MConstant => if (0 <=? i) && (i <? n) then Some i else None
  | MNearest => Some (Z.max 0 (Z.min (n - 1) i))
  | MMirror => if n =? 1 then Some 0
               else let r := i mod (2 * n - 2) in Some (if r <? n then r else 2 * n - 2 - r)
  | MWrap => Some (i mod n)
  end.

Definition qsum (l : list Q) : Q := fold_right Qplus 0%Q l.
Definition qmean (l : list Q) : Q := (qsum l / inject_Z (zlen l))%Q.
Definition qle (x y : Q) : bool := Qle_bool x y.
Fixpoint qinsert (x : Q) (l : list Q) : list Q :=
  match l with [] => [x] | y :: t => if qle x y then x :: l else y :: qinsert x t end.
Fixpoint qsort (l : list Q) : list Q := match l with [] => [] | x :: t => qinsert x (qsort t) end.
Definition qleast (l : list Q) : Q := at_ (qsort l) 0.
Definition qgreatest (l : list Q) : Q := at_ (qsort l) (zlen l - 1).

(** ** moving.py *)

Inductive mop := OMedian | OMean | OStd | OSum | OMin | OMax.
(** moving.py 27-53: the registry. *)
Definition operation (s : string) : option mop :=
  if String.eqb s "median" then Some OMedian
  else if String.eqb s "mean" then Some OMean
  else if String.eqb s "std" then Some OStd
  else if String.eqb s "sum" then Some OSum
  else if String.eqb s "min" then Some OMin
  else if String.eqb s "max" then Some OMax
  else None.

(** The positions a centred filter of scipy reads for the sample [i]. *)
Definition centred (w origin i : Z) : list Z := map (fun k => i - w / 2 - origin + k) (zrange w).
Definition read (md : bmode) (cval : Q) (f : list Q) (j : Z) : Q :=
  match border md (zlen f) j with Some k => at_ f k | None => cval end.
(** median_filter takes the element of rank n // 2, whether n is odd or not. *)
Definition sp_reduce (op : mop) (l : list Q) : Q :=
  match op with
  | OMedian => at_ (qsort l) (zlen l / 2)
  | OMean => qmean l
  | OSum => (qmean l * inject_Z (zlen l))%Q
  | OMin => qleast l
  | OMax => qgreatest l
  | OStd => 0%Q
  end.
Definition sp_line (op : mop) (w origin : Z) (md : bmode) (cval : Q) (f : list Q) : list Q :=
  map (fun i => sp_reduce op (map (read md cval f) (centred w origin i))) (zrange (zlen f)).
(** moving.py 55-89: _apply_scipy_operation. std has no entry, and subscripting it
    fails; scipy refuses an origin that is not in the window. *)
Definition apply_scipy (a : nd Q) (w : Z) (op : mop) (ax : nat) (md : bmode) (cval : Q) (origin : Z)
  : result (nd (option Q)) :=
  match op with
  | OStd => Err TypeError
  | _ =>
      if (w / 2 + origin <? 0) || (w <=? w / 2 + origin) then Err ValueError
      else opt_result (along (fun f => map Some (sp_line op w origin md cval f)) ax a)
  end.

(** moving.py 92-94. *)
Definition scipy_boundary (md : bmode) (origin : Z) : bool :=
  negb (match md with MReflect => true | _ => false end) || negb (origin =? 0).

(** bottleneck's trailing windows: the samples up to [i], at most [w] of them. *)
Definition trailing (w i : Z) : list Z := filter (fun j => i - w <? j) (zrange (i + 1)).
Definition bn_median (l : list Q) : Q :=
  let n := zlen l in let s := qsort l in
  if Z.odd n then at_ s (n / 2) else ((at_ s (n / 2 - 1) + at_ s (n / 2)) / 2)%Q.
(** [root] is the square root. *)
Definition bn_reduce (root : Q -> Q) (ddof : Z) (op : mop) (l : list Q) : Q :=
  match op with
  | OMedian => bn_median l
  | OMean => qmean l
  | OSum => qsum l
  | OMin => qleast l
  | OMax => qgreatest l
  | OStd => root (qsum (map (fun x => (x - qmean l) * (x - qmean l))%Q l) / inject_Z (zlen l - ddof))%Q
  end.
(** moving.py 124-133: _shift_bottleneck_result: the last window // 2 elements stay. *)
Definition shifted {A} (w : Z) (l : list A) : list A :=
  let s := w / 2 in
  skipn (Z.to_nat s) l ++ skipn (Z.to_nat (zlen l - s)) l.
Definition bn_line (root : Q -> Q) (ddof : Z) (op : mop) (w mc : Z) (f : list Q) : list (option Q) :=
  shifted w (map (fun i => let l := map (at_ f) (trailing w i) in
                           if zlen l <? mc then None else Some (bn_reduce root ddof op l)) (zrange (zlen f))).
(** moving.py 97-182: _apply_bottleneck_median and _apply_bottleneck_operation. bottleneck
    wants 0 < min_count <= window. A ddof that may reach the number of samples is not
    modelled. *)
Definition apply_bottleneck (root : Q -> Q) (a : nd Q) (w : Z) (op : mop) (ax : nat) (md : bmode) (cval : Q)
  (origin mc ddof : Z) : result (nd (option Q)) :=
  let bn := if (mc <=? 0) || (w <? mc) then Err ValueError
            else opt_result (along (bn_line root ddof op w mc) ax a) in
  match op with
  | OMedian =>
      if (w mod 2 =? 0) || scipy_boundary md origin then apply_scipy a w OMedian ax md cval origin else bn
  | OStd =>
      if scipy_boundary md origin then Err ParameterError
      else if mc <=? ddof then Err Unmodelled else bn
  | _ => if scipy_boundary md origin then apply_scipy a w op ax md cval origin else bn
  end.

Inductive engine := EAuto | EScipy | EBottleneck | EOther.
(** moving.py 205-232: _select_engine; true stands for bottleneck. [bn] says whether that
    is installed. *)
Definition select_engine (bn : bool) (e : engine) (op : mop) : result bool :=
  let pick := match e with EAuto | EBottleneck => bn | EScipy | EOther => false end in
  match pick, op with
  | false, OStd => Err ParameterError
  | _, _ => Ok pick
  end.

(** moving.py 235-311. *)
Definition moving_window (bn : bool) (root : Q -> Q) (a : nd Q) (w : Z) (op : string) (ax : nat) (e : engine)
  (md : bmode) (cval : Q) (origin mc ddof : Z) : result (nd (option Q)) :=
  if w <=? 0 then Err ParameterError
  else match operation op with
  | None => Err ParameterError
  | Some o =>
      match nth_error (nd_shape a) ax with
      | None => Err IndexError
      | Some n =>
          if n <? w then Err ParameterError
          else
            do b <- select_engine bn e o;
            if b then apply_bottleneck root a w o ax md cval origin mc ddof
            else apply_scipy a w o ax md cval origin
      end
  end.

(** ** Window lengths *)

(** utils/patch.py 712-797; enforce_lt_coord is not used by the filters here. *)
Definition window_one (cm : cman) (samples odd : bool) (least : Z) (e : string * Z) : result Z :=
  match assoc (fst e) (cm_coords cm) with
  | Some (M1 (CRange r)) =>
      do n <- (if samples then sample_count_samples r (snd e) false else sample_count r (snd e) false);
      if n <? least then Err ParameterError
      else if odd && negb (n mod 2 =? 1)
      then if samples then Err ParameterError else Ok (n + 1)
      else Ok n
  | _ => Err CoordError
  end.
Definition put_sizes (f : string * Z -> result Z) (cm : cman) (l : list (string * Z)) (init : list Z) : result (list Z) :=
  fold_left (fun acc e => do s <- acc; do n <- f e; do ax <- get_axis cm (fst e); Ok (put s ax n)) l (Ok init).
Definition window_size (cm : cman) (kw : list (string * Z)) (samples odd : bool) (least : Z) : result (list Z) :=
  let ones := map (fun _ => 1) (cm_dims cm) in
  match kw with
  | [] => Ok ones
  | _ => do l <- named_dims (cm_dims cm) kw;
         put_sizes (window_one cm samples odd least) cm l ones
  end.

(** filter.py 196-210: _create_size_and_axes: the length of each window and the axes in the
    order of the keywords. *)
Definition size_one (cm : cman) (samples : bool) (e : string * Z) : result Z :=
  match assoc (fst e) (cm_coords cm) with
  | Some (M1 (CRange r)) => if samples then sample_count_samples r (snd e) false else sample_count r (snd e) false
  | _ => Err CoordError
  end.
Definition sizes_axes (cm : cman) (kw : list (string * Z)) (samples : bool) : result (list (Z * nat)) :=
  do l <- named_dims (cm_dims cm) kw;
  map_result (fun e => do n <- size_one cm samples e; do ax <- get_axis cm (fst e); Ok (n, ax)) l.

(** ** Medians over boxes *)

Fixpoint cart (l : list (list Z)) : list (list Z) :=
  match l with [] => [[]] | x :: t => flat_map (fun i => map (cons i) (cart t)) x end.
(** scipy.ndimage.median_filter with a length for each axis. *)
Definition box_read (md : bmode) (cval : Q) (a : nd Q) (jx : list Z) : option Q :=
  match traverse (fun e => border md (fst e) (snd e)) (combine (nd_shape a) jx) with
  | Some kx => nd_get a kx
  | None => Some cval
  end.
Definition box_positions (sizes ix : list Z) : list (list Z) :=
  cart (map (fun e => centred (fst e) 0 (snd e)) (combine sizes ix)).
Definition box_median (md : bmode) (cval : Q) (sizes : list Z) (a : nd Q) : option (nd Q) :=
  nd_build (nd_shape a) (fun ix =>
    match traverse (box_read md cval a) (box_positions sizes ix) with
    | Some l => Some (sp_reduce OMedian l)
    | None => None
    end).

(** filter.py 213-267; scipy takes no window without samples. *)
Definition pt_median_filter (samples : bool) (md : bmode) (cval : Q) (kw : list (string * Z)) (p : patch Q)
  : result (patch Q) :=
  do l <- sizes_axes (p_cm p) kw samples;
  let sizes := fold_left (fun s e => put s (snd e) (fst e)) l (map (fun _ => 1) (cm_dims (p_cm p))) in
  if existsb (fun w => w <? 1) sizes then Err Unmodelled
  else
    do b <- opt_result (box_median md cval sizes (p_data p));
    new_patch (p_cm p) b.

(** ** Hampel *)

(** The element types of data. *)
Inductive dtype := F64 | F32 | Ints.
(** np.finfo(dtype).eps, of the type calculated in. *)
Definition eps (t : dtype) : Q := match t with F64 => 1 # (2 ^ 52) | _ => 1 # (2 ^ 23) end.
(** Nearest integer, to even from the middle: np.rint. *)
Definition rint (q : Q) : Z :=
  let n := Qnum q in let d := QDen q in
  let f := n / d in let r := 2 * (n mod d) in
  if r <? d then f else if d <? r then f + 1 else if Z.even f then f else f + 1.
(** An integer as a float32: 24 binary digits are kept. *)
Definition f32 (z : Z) : Z :=
  let e := Z.log2 (Z.abs z) - 23 in
  if e <=? 0 then z else rint (Qmake z (Z.to_pos (2 ^ e))) * 2 ^ e.

Definition nd_zip (f : Q -> Q -> Q) (a b : nd Q) : option (nd Q) :=
  nd_build (nd_shape a) (fun ix => match nd_get a ix, nd_get b ix with Some x, Some y => Some (f x y) | _, _ => None end).
Definition force (a : nd (option Q)) : option (nd Q) :=
  option_map (mkNd (nd_shape a)) (traverse (fun x => x) (nd_flat a)).

(** hampel.py 16-33: _separable_median. *)
Definition separable_median (bn : bool) (sizes : list Z) (a : nd Q) : result (nd Q) :=
  fold_left (fun acc e =>
    do x <- acc;
    if 1 <? fst e
    then do y <- moving_window bn (fun q => q) x (fst e) "median" (snd e) EAuto MReflect 0 0 1 0;
         opt_result (force y)
    else Ok x) (combine sizes (seq 0 (List.length sizes))) (Ok a).
(** hampel.py 36-93: the rest is the same for both kinds of medians [med]. *)
Definition hampel (t : dtype) (threshold : Q) (med : nd Q -> result (nd Q)) (a : nd Q) : result (nd Q) :=
  do m <- med a;
  do dev <- opt_result (nd_zip (fun x y => Qabs (x - y)) a m);
  do mad <- med dev;
  do ratio <- opt_result (nd_zip (fun x y => x / (if Qeq_bool y 0 then eps t else y))%Q dev mad);
  opt_result (nd_build (nd_shape a) (fun ix =>
    match nd_get a ix, nd_get m ix, nd_get ratio ix with
    | Some x, Some y, Some r => Some (if qle r threshold then x else y)
    | _, _, _ => None
    end)).
Definition nd_map {A B} (f : A -> B) (a : nd A) : nd B := mkNd (nd_shape a) (map f (nd_flat a)).
(** An integer element: data of integers holds no other rationals. *)
Definition to_z (q : Q) : Z := Qnum q / QDen q.
(** hampel.py 96-206; no threshold is one that is not finite. *)
Definition pt_hampel (bn : bool) (t : dtype) (threshold : option Q) (samples approximate : bool)
  (kw : list (string * Z)) (p : patch Q) : result (patch Q) :=
  match threshold with
  | None => Err ParameterError
  | Some h =>
      if qle h 0 then Err ParameterError
      else
        do sizes <- window_size (p_cm p) kw samples true 3;
        let a := match t with Ints => nd_map (fun q => inject_Z (f32 (to_z q))) (p_data p) | _ => p_data p end in
        let med := if approximate then separable_median bn sizes
                   else fun x => opt_result (box_median MReflect 0 sizes x) in
        do b <- hampel t h med a;
        let c := match t with Ints => nd_map (fun q => inject_Z (rint q)) b | _ => b end in
        new_patch (p_cm p) c
  end.

(** ** Filters along lines *)

(** scipy.ndimage.correlate1d with an odd number of weights. *)
Definition correlate (ws : list Q) (md : bmode) (cval : Q) (f : list Q) : list Q :=
  map (fun i => qsum (map (fun e => fst e * snd e)%Q (combine ws (map (read md cval f) (centred (zlen ws) 0 i)))))
      (zrange (zlen f)).

(** filter.py 53-78: the names of the modes; the grid variants do the same here. *)
Definition parse_mode (s : string) : option bmode :=
  if String.eqb s "reflect" || String.eqb s "grid-mirror" then Some MReflect
  else if String.eqb s "constant" || String.eqb s "grid-constant" then Some MConstant
  else if String.eqb s "nearest" then Some MNearest
  else if String.eqb s "mirror" then Some MMirror
  else if String.eqb s "wrap" || String.eqb s "grid-wrap" then Some MWrap
  else None.
(** filter.py 159-193, with scipy.ndimage.sobel: the difference along the axis, then weights
    1, 2, 1 along every other. *)
Definition sobel (ax : nat) (md : bmode) (cval : Q) (a : nd Q) : result (nd Q) :=
  fold_left (fun acc k => do x <- acc; opt_result (along (correlate [1; 2; 1]%Q md cval) k x))
    (filter (fun k => negb (Nat.eqb k ax)) (seq 0 (List.length (nd_shape a))))
    (opt_result (along (correlate [-(1); 0; 1]%Q md cval) ax a)).
Definition pt_sobel (d mode : string) (cval : Q) (p : patch Q) : result (patch Q) :=
  match parse_mode mode with
  | None => Err FilterValueError
  | Some md =>
      do ax <- get_axis (p_cm p) d;
      do b <- sobel ax md cval (p_data p);
      new_patch (p_cm p) b
  end.

(** filter.py 337-401. [sg] is what scipy.signal.savgol_filter makes of a line for a window
    length. *)
Definition pt_savgol (sg : Z -> list Q -> list Q) (samples : bool) (kw : list (string * Z)) (p : patch Q)
  : result (patch Q) :=
  do l <- sizes_axes (p_cm p) kw samples;
  do b <- fold_left (fun acc e => do _ <- acc; opt_result (along (sg (fst e)) (snd e) (p_data p))) l (Ok (p_data p));
  new_patch (p_cm p) b.

(** filter.py 404-465, with scipy.ndimage.gaussian_filter, which filters along one axis after
    the other. [weights] are those of a standard deviation in samples, an odd number. *)
Definition pt_gaussian (weights : Z -> list Q) (samples : bool) (md : bmode) (cval : Q) (kw : list (string * Z))
  (p : patch Q) : result (patch Q) :=
  do l <- sizes_axes (p_cm p) kw samples;
  do b <- fold_left (fun acc e => do x <- acc; opt_result (along (correlate (weights (fst e)) md cval) (snd e) x))
            l (Ok (p_data p));
  new_patch (p_cm p) b.
