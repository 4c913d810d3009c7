(** Model of detrending, kurtosis and slant stacks: dascore/proc/detrend.py,
    dascore/transform/kurtosis.py and dascore/transform/taup.py.

    Floats are exact rationals and data has no NaN; None stands for the NaN of the result.
    Not modelled: attributes, units (tau_p converts to metres and seconds first), complex
    data. *)
From Verif Require Import Base CoordModel NdModel FrameModel ChunkModel CmModel ProcModel MuteModel CalcModel MoveModel.
From Coq Require Import Strings.String QArith.
Local Open Scope Z_scope.
Local Open Scope list_scope.

(** ** detrend *)

Inductive trend := Constant | Linear.
(** The names scipy.signal.detrend knows. *)
Definition parse_trend (s : string) : option trend :=
  if String.eqb s "linear" || String.eqb s "l" then Some Linear
  else if String.eqb s "constant" || String.eqb s "c" then Some Constant
  else None.
(** scipy.signal.detrend of a line: less its mean, or less the solution of least squares.
    scipy solves that with lstsq; here it is written out, around the middle of the line. *)
Definition middle (n : Z) : Q := (inject_Z (n - 1) / 2)%Q.
Definition places (n : Z) : list Q := map (fun k => inject_Z k - middle n)%Q (zrange n).
Definition dot (l m : list Q) : Q := qsum (map (fun e => fst e * snd e)%Q (combine l m)).
Definition slope (f : list Q) : Q := (dot (places (zlen f)) f / dot (places (zlen f)) (places (zlen f)))%Q.
Definition detrend_line (t : trend) (f : list Q) : list Q :=
  match t with
  | Constant => map (fun x => x - qmean f)%Q f
  | Linear => map (fun e => snd e - (qmean f + slope f * fst e))%Q (combine (places (zlen f)) f)
  end.
(** detrend.py 15-45. *)
Definition pt_detrend (d type : string) (p : patch Q) : result (patch Q) :=
  match index_of d (cm_dims (p_cm p)) with
  | None => Err ParameterError
  | Some ax =>
      match parse_trend type with
      | None => Err ValueError
      | Some t =>
          do b <- opt_result (along (detrend_line t) ax (p_data p));
          new_patch (p_cm p) b
      end
  end.

(** ** kurtosis *)

(** kurtosis.py 17-29: the number of samples in a window; a descending coordinate is sorted
    first. *)
Definition ascending_range (r : crange) : result crange :=
  if r_step r <? 0 then match fst (r_sort r false) with CRange s => Ok s | _ => Err CoordError end else Ok r.
Definition window_samples (r : crange) (v : Z) (samples : bool) : result Z :=
  do s <- ascending_range r;
  do n <- (if samples then sample_count_samples s v false else sample_count s v false);
  if n <? 2 then Err ParameterError else Ok n.

(** kurtosis.py 32-50: the elements summed for the sample [i]. *)
Definition clipped (w i : Z) (f : list Q) : list Q :=
  let start := Z.max (i - w / 2) 0 in
  let stop := Z.min (i + (w - w / 2)) (zlen f) in
  firstn (Z.to_nat (stop - start)) (skipn (Z.to_nat start) f).
Definition power_sum (k : nat) (l : list Q) : Q := qsum (map (fun x => Qpower x (Z.of_nat k)) l).
(** kurtosis.py 53-80: _windowed_kurtosis, for one line. *)
Definition moments (l : list Q) : option Q :=
  let c := inject_Z (zlen l) in
  let m1 := (power_sum 1 l / c)%Q in
  let m2 := (power_sum 2 l / c)%Q in
  let m3 := (power_sum 3 l / c)%Q in
  let m4 := (power_sum 4 l / c)%Q in
  let mu2 := (m2 - m1 * m1)%Q in
  let mu4 := (m4 - 4 * m1 * m3 + 6 * (m1 * m1) * m2 - 3 * (m1 * m1 * (m1 * m1)))%Q in
  if qle mu2 0 then None else Some (mu4 / (mu2 * mu2))%Q.
Definition windowed_line (w : Z) (f : list Q) : list (option Q) := map (fun i => moments (clipped w i f)) (zrange (zlen f)).

(** np.var of a line. *)
Definition qvar (l : list Q) : Q := qmean (map (fun x => (x - qmean l) * (x - qmean l))%Q l).
(** kurtosis.py 83-118: _recursive_kurtosis, for one line. The state is the mean, the
    variance and the kurtosis, which stays NaN. *)
Record rstate := mkRs { rs_mean : Q; rs_var : Q; rs_kurt : option Q }.
Definition rec_step (c varx : Q) (s : rstate) (x : Q) : rstate :=
  let m := (c * rs_mean s + (1 - c) * x)%Q in
  let d := (x - m)%Q in
  let v := (c * rs_var s + (1 - c) * (d * d))%Q in
  let norm := if qle v varx then (varx * varx)%Q else (v * v)%Q in
  mkRs m v (if qle norm 0 then None
            else option_map (fun k => c * k + (1 - c) * (d * d * (d * d)) / norm)%Q (rs_kurt s)).
Fixpoint rec_run (c varx : Q) (s : rstate) (l : list Q) : list (option Q) :=
  match l with
  | [] => []
  | x :: t => let s' := rec_step c varx s x in rs_kurt s' :: rec_run c varx s' t
  end.
(** The step over the length of the window, which is a number of steps. *)
Definition recursive_line (w : Z) (f : list Q) : list (option Q) :=
  rec_run (1 - 1 / inject_Z w)%Q (qvar f) (mkRs 0 0 (Some 0%Q)) f.

(** kurtosis.py 121-244. Transposing the dimension to the front and flattening the others
    is left out: what is done is done line by line. *)
Definition pt_kurtosis (samples recursive : bool) (kw : list (string * Z)) (p : patch Q) : result (patch (option Q)) :=
  do l <- match filter (fun e => mem (fst e) (cm_dims (p_cm p))) kw with
          | _ :: _ :: _ => Err ParameterError
          | _ => named_dims (cm_dims (p_cm p)) kw
          end;
  match l with
  | (d, v) :: _ =>
      match assoc d (cm_coords (p_cm p)), index_of d (cm_dims (p_cm p)) with
      | Some (M1 (CRange r)), Some ax =>
          do w <- window_samples r v samples;
          do b <- opt_result (along (if recursive then recursive_line w else windowed_line w) ax (p_data p));
          new_patch (p_cm p) b
      | _, _ => Err CoordError
      end
  | [] => Err ParameterError
  end.

(** ** tau_p *)

(** int() of a float. *)
Definition q_trunc (q : Q) : Z := Z.quot (Qnum q) (QDen q).
(** An element by a subscript of python. *)
Definition py_get (f : list Q) (i : Z) : option Q := znth f (if i <? 0 then i + zlen f else i).
(** taup.py 31-40: what is added for one trace, with the position [s] in it and the sample
    [i] taken for the one before. *)
Definition interpolated (f : list Q) (s : Q) (i : Z) : option Q :=
  if i + 1 <? zlen f
  then match py_get f i, py_get f (i + 1) with
       | Some x, Some y => Some ((1 + inject_Z i - s) * x + (s - inject_Z i) * y)%Q
       | _, _ => None
       end
  else Some 0%Q.
Definition stacked (one : list Q -> Z -> option Q) (rows : list (list Q)) : option Q :=
  option_map qsum (traverse (fun e => one (snd e) (fst e)) (combine (zrange (zlen rows)) rows)).
(** taup.py 16-41: the rows of the result; those of the negative slownesses take the traces
    from the other end. *)
Definition shift_uniform (dx dt p : Q) (tau k : Z) : Q := (inject_Z tau + p * dx * inject_Z k / dt)%Q.
Definition uniform_row (dx dt p : Q) (nt : Z) (rows : list (list Q)) : option (list Q) :=
  traverse (fun tau => stacked (fun f k => let s := shift_uniform dx dt p tau k in interpolated f s (q_trunc s)) rows) (zrange nt).
Definition taup_uniform (dx dt : Q) (ps : list Q) (nt : Z) (rows : list (list Q)) : option (list (list Q)) :=
  match traverse (fun p => uniform_row dx dt p nt (rev rows)) (rev ps), traverse (fun p => uniform_row dx dt p nt rows) ps with
  | Some neg, Some pos => Some (neg ++ pos)
  | _, _ => None
  end.
(** taup.py 44-75: for the negative ones the sample before is that of the positive ones. *)
Definition shift_general (ds : list Q) (dt p : Q) (tau k : Z) : Q := (inject_Z tau + p * (at_ ds k - at_ ds 0) / dt)%Q.
Definition shift_negative (ds : list Q) (dt p : Q) (tau k : Z) : Q :=
  let n := zlen ds in (inject_Z tau + p * ((at_ ds (n - 1) - at_ ds 0) - (at_ ds (n - 1 - k) - at_ ds 0)) / dt)%Q.
Definition general_pos (ds : list Q) (dt p : Q) (nt : Z) (rows : list (list Q)) : option (list Q) :=
  traverse (fun tau => stacked (fun f k => let s := shift_general ds dt p tau k in interpolated f s (q_trunc s)) rows) (zrange nt).
Definition general_neg (ds : list Q) (dt p : Q) (nt : Z) (rows : list (list Q)) : option (list Q) :=
  traverse (fun tau => stacked (fun f k => interpolated f (shift_negative ds dt p tau k) (q_trunc (shift_general ds dt p tau k))) (rev rows)) (zrange nt).
Definition taup_general (ds : list Q) (dt : Q) (ps : list Q) (nt : Z) (rows : list (list Q)) : option (list (list Q)) :=
  match traverse (fun p => general_neg ds dt p nt rows) (rev ps), traverse (fun p => general_pos ds dt p nt rows) ps with
  | Some neg, Some pos => Some (neg ++ pos)
  | _, _ => None
  end.

Definition rows_of (a : nd Q) : option (list (list Q)) :=
  match nd_shape a with
  | [nx; nt] => traverse (fun i => traverse (fun t => nd_get a [i; t]) (zrange nt)) (zrange nx)
  | _ => None
  end.
Fixpoint increasing (l : list Q) : bool :=
  match l with x :: ((y :: _) as t) => negb (qle y x) && increasing t | _ => true end.
(** taup.py 78-154. The result is the slownesses, the time coordinate and the rows, which
    must fit it. The data is that of the patch before it was transposed. Patches of more
    than two dimensions are not modelled. *)
Definition pt_taup (vels : list Q) (p : patch Q) : result (list Q * crange * list (list Q)) :=
  let cm := p_cm p in
  if negb (mem "time"%string (cm_dims cm) && mem "distance"%string (cm_dims cm)) then Err PatchCoordinateError
  else if negb (zlen (cm_dims cm) =? 2) then Err Unmodelled
  else
    match assoc "time"%string (cm_coords cm), assoc "distance"%string (cm_coords cm) with
    | Some (M1 (CRange r)), Some (M1 c) =>
        let dt := to_fl (CRange r) (r_step r) in
        if existsb (fun v => qle v 0) vels then Err ParameterError
        else if negb (increasing vels) then Err ParameterError
        else
          let ps := map (fun v => 1 / v)%Q vels in
          match rows_of (p_data p), nd_shape (p_data p) with
          | Some rows, [nx; nt] =>
              do out <- match c with
                        | CRange x => opt_result (taup_uniform (to_fl c (r_step x)) dt ps nt rows)
                        | CPart _ => Err Unmodelled
                        | _ => if c_len c =? nx
                               then opt_result (taup_general (map (to_fl c) (c_ints c)) dt ps nt rows)
                               else Err Unmodelled
                        end;
              if nt =? r_len r then Ok (rev (map Qopp ps) ++ ps, r, out) else Err CoordDataError
          | _, _ => Err Unmodelled
          end
    | _, _ => Err CoordError
    end.
