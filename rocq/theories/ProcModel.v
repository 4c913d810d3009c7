(** Model of patch processing that moves samples along one dimension:
    dascore/proc/align.py, dascore/proc/rolling.py and pad in
    dascore/proc/basic.py.

    Data elements are abstract; the fill value (NaN or the padding constant) is an
    element of the same type. Time shifts are timedelta64 (kind [KTime]). *)
From Verif Require Import Base CoordModel NdModel FrameModel ChunkModel CmModel.
From Coq Require Import Strings.String.
Local Open Scope Z_scope.
Local Open Scope list_scope.

(** ** align_to_coord *)

Inductive amode := Full | Same | Valid.

(** align.py 33-39: _get_source_indices for one shift. *)
Definition source_indices (s start_shift end_shift n : Z) : Z * Z :=
  let min_start := - s + start_shift in
  let start := if min_start <? 0 then 0 else min_start in
  let max_end := n - s + end_shift in
  let stop := if n <? max_end then n else max_end in
  (start, stop).

(** [np.clip]. *)
Definition clip (x lo hi : Z) : Z := Z.min (Z.max x lo) hi.

(** align.py 42-54: _get_dest_indices for one shift. *)
Definition dest_indices (s start_shift end_shift n output_size : Z) : Z * Z :=
  let start := Z.max 0 (s - start_shift) in
  let source_start := clip (- s + start_shift) 0 n in
  let source_end := clip (n - s + end_shift) 0 n in
  let source_length := Z.max (source_end - source_start) 0 in
  (start, clip (start + source_length) 0 output_size).

(** align.py 76-95: start and end shift of a mode, from the extreme shifts. *)
Definition mode_shifts (m : amode) (mn mx : Z) : Z * Z :=
  match m with
  | Full => (mn, mx)
  | Same => (0, 0)
  | Valid => (if 0 <? mx then mx else 0, if mn <? 0 then mn else 0)
  end.

Fixpoint find_pos (x : Z) (l : list Z) : option Z :=
  match l with
  | [] => None
  | y :: t => if x =? y then Some 0 else option_map (Z.add 1) (find_pos x t)
  end.

(** [out[dest] = data[source]] where both indexers fix the axes [axs] at [idx]
    and slice axis [ax] (align.py 117-123, 136-144). numpy copies equal lengths
    and broadcasts length one; anything else is a ValueError. *)
Definition put_trace {A} (out data : nd A) (ax : nat) (axs : list nat) (idx src dst : list Z)
  : result (nd A) :=
  if negb ((zlen src =? zlen dst) || (zlen src =? 1)) then Err ValueError
  else
    match nd_build (nd_shape out) (fun ix =>
      match gather_nat ix axs, nth_error ix ax with
      | Some q, Some j =>
          if zlist_eqb q idx then
            match find_pos j dst with
            | Some k => match znth src (if zlen src =? 1 then 0 else k) with
                        | Some i => nd_get data (put ix ax i)
                        | None => None end
            | None => nd_get out ix
            end
          else nd_get out ix
      | _, _ => None
      end) with
    | Some b => Ok b
    | None => Err IndexError
    end.

(** [data[start:stop]] along an axis of length [n]. *)
Definition span (n : Z) (w : Z * Z) : result (list Z) :=
  match slice_positions n (mkSlice (Some (fst w)) (Some (snd w)) None) with
  | Some ps => Ok ps
  | None => Err ValueError
  end.

(** align.py 126-145: _apply_shifts_to_data. [np.full] refuses a negative length. *)
Definition apply_shifts {A} (data : nd A) (shifts : nd Z) (ax : nat) (axs : list nat)
  (n lo hi : Z) (fill : A) : result (nd A) :=
  let size' := n + hi - lo in
  if size' <? 0 then Err ValueError
  else
    match nd_build (put (nd_shape data) ax size') (fun _ => Some fill) with
    | None => Err ValueError
    | Some out =>
        (* zip(idx, coord_axes, strict=True) *)
        if negb (Nat.eqb (List.length (nd_shape shifts)) (List.length axs)) then Err ValueError
        else
          fold_left (fun acc idx =>
            do o <- acc;
            match nd_get shifts idx with
            | None => Err IndexError
            | Some s =>
                do src <- span n (source_indices s lo hi n);
                do dst <- span size' (dest_indices s lo hi n size');
                put_trace o data ax axs idx src dst
            end) (all_ix (nd_shape shifts)) (Ok out)
    end.

(** align.py 226-257: _get_coord_values, and the values as an array. An integer
    coordinate aligns a time dimension in seconds. Other dtype combinations and
    partial coordinates are not modelled. *)
Definition m_array (m : mcoord) : result (kind * nd Z) :=
  match m with
  | M1 (CRange r) => Ok (r_kind r, mkNd [r_len r] (r_values r))
  | M1 (CMono k v) | M1 (CArr k v) => Ok (k, mkNd [zlen v] v)
  | MN k a => Ok (k, a)
  | _ => Err Unmodelled
  end.
Definition align_values (dk : kind) (m : mcoord) (samples : bool) : result (nd Z) :=
  do ka <- m_array m;
  let (k, a) := ka in
  match samples, dk, k with
  | true, _, KInt => Ok a
  | true, _, KTime => Err ParameterError
  | false, KInt, KInt | false, KTime, KTime => Ok a
  | false, KTime, KInt => Ok (mkNd (nd_shape a) (map (Z.mul 1000000000) (nd_flat a)))
  | false, KInt, KTime => Err Unmodelled
  end.

(** align.py 196-223: _get_shift_indices. The ValueError of get_next_index becomes
    a ParameterError. *)
Definition shift_indices (r : crange) (vals : nd Z) (reverse samples : bool) (m : amode) : result (nd Z) :=
  let allow := match m with Full => true | _ => false end in
  let abs_vals := map Z.abs (nd_flat vals) in
  let inds :=
    if samples then next_index_samples (CRange r) abs_vals allow
    else do l <- rel_values (CRange r) true abs_vals; next_index (CRange r) l allow in
  match inds with
  | Err ValueError => Err ParameterError
  | Err e => Err e
  | Ok l =>
      Ok (mkNd (nd_shape vals)
            (map (fun p => fst p * (Z.sgn (snd p) * (if reverse then -1 else 1))) (combine l (nd_flat vals))))
  end.

Definition axis_of (cm : cman) (d : string) : result nat :=
  match index_of d (cm_dims cm) with Some i => Ok i | None => Err ValueError end.

(** align.py 181-193: _get_aligned_coords. *)
Definition aligned_coord (r : crange) (lo hi : Z) : result coord :=
  do c <- r_update_limits r (Some (r_min r + r_step r * lo)) None None;
  match c with
  | CRange r' => change_length r' (r_len r - lo + hi)
  | _ => Err Unmodelled
  end.

(** align.py 148-178 and 260-388: align_to_coord with one keyword dim=name. *)
Definition pt_align {A} (p : patch A) (m : amode) (samples reverse : bool) (fill : A)
  (dim name : string) : result (patch A) :=
  let cm := p_cm p in
  if negb (mem dim (cm_dims cm)) then Err ParameterError
  else
    match assoc name (cm_coords cm), assoc name (cm_dmap cm) with
    | Some c, Some ds =>
        if mem name (cm_dims cm) then Err ParameterError
        else if mem dim ds then Err ParameterError
        else
          match assoc dim (cm_coords cm) with
          | Some (M1 (CRange r)) =>
              do vals <- align_values (r_kind r) c samples;
              do ax <- axis_of cm dim;
              do axs <- map_result (axis_of cm) ds;
              do inds <- shift_indices r vals reverse samples m;
              match list_min (nd_flat inds), list_max (nd_flat inds) with
              | Some mn, Some mx =>
                  let (lo, hi) := mode_shifts m mn mx in
                  do data <- apply_shifts (p_data p) inds ax axs (r_len r) lo hi fill;
                  do c' <- aligned_coord r lo hi;
                  do cm' <- cm_update cm [(dim, KSimple (VCoord (M1 c')))];
                  new_patch cm' data
              | _, _ => Err ValueError
              end
          | _ => Err CoordError
          end
    | _, _ => Err ParameterError
    end.

(** ** pad *)

(** [np.pad(mode="constant")] along one axis; negative widths are refused. *)
Definition nd_pad {A} (a : nd A) (ax : nat) (before after : Z) (fill : A) : result (nd A) :=
  if (before <? 0) || (after <? 0) then Err ValueError
  else
    match nth_error (nd_shape a) ax with
    | None => Err IndexError
    | Some n =>
        match nd_build (put (nd_shape a) ax (before + n + after)) (fun ix =>
          match nth_error ix ax with
          | Some j => if (before <=? j) && (j <? before + n)
                      then nd_get a (put ix ax (j - before)) else Some fill
          | None => None
          end) with
        | Some b => Ok b
        | None => Err ValueError
        end
    end.

(** The value of one keyword: sample counts or coordinate lengths before and
    after, or "fft" / "correlate". *)
Inductive padval := PadPair (a b : Z) | PadFft | PadCorrelate.

(** basic.py 611-624: _get_pad_tuple. [fast] is scipy's next_fast_len. *)
Definition pad_tuple (fast : Z -> Z) (v : padval) (samples : bool) (c : coord) : result (Z * Z) :=
  let n := c_len c in
  match v with
  | PadFft => Ok (0, fast n - n)
  | PadCorrelate => Ok (0, fast (2 * n - 1) - n)
  | PadPair a b =>
      if samples then Ok (a, b)
      else match c with
           | CRange r => do x <- sample_count r a false; do y <- sample_count r b false; Ok (x, y)
           | _ => Err CoordError
           end
  end.

(** basic.py 626-645: _get_new_coord. Padding with NaN is not modelled. *)
Definition pad_coord (c : coord) (w : Z * Z) (expand : bool) : result coord :=
  match expand, c with
  | true, CRange r =>
      do r' <- mk_range (r_kind r) (r_min r - fst w * r_step r) (r_max r + (snd w + 1) * r_step r) (r_step r);
      Ok (CRange r')
  | _, _ => Err Unmodelled
  end.

(** basic.py 647-663: pad along the given dimensions in turn. *)
Definition pt_pad {A} (fast : Z -> Z) (p : patch A) (fill : A) (expand samples : bool)
  (kw : list (string * padval)) : result (patch A) :=
  let cm := p_cm p in
  match filter (fun e => mem (fst e) (cm_dims cm)) kw with
  | [] => Err ParameterError
  | _ =>
      if negb (forallb (fun e => mem (fst e) (cm_dims cm)) kw) then Err PatchCoordinateError
      else
        do info <- map_result (fun e =>
          do ax <- axis_of cm (fst e);
          match assoc (fst e) (cm_coords cm) with
          | Some (M1 c) =>
              if negb samples && negb (c_evenly c) then Err CoordError
              else
                do w <- pad_tuple fast (snd e) samples c;
                do c' <- pad_coord c w expand;
                Ok (fst e, ax, w, c')
          | _ => Err CoordError
          end) kw;
        do data <- fold_left (fun acc x => do a <- acc; let '(_, ax, w, _) := x in nd_pad a ax (fst w) (snd w) fill)
                     info (Ok (p_data p));
        do cm' <- cm_update cm (map (fun x => let '(d, _, _, c') := x in (d, KSimple (VCoord (M1 c')))) info);
        new_patch cm' data
  end.

(** ** rolling *)

(** utils/patch.py 860-883: get_window_axis_step; numbers are sample counts
    ([samples]) or coordinate lengths, percentages are not modelled. *)
Definition count_of (r : crange) (samples : bool) (v : Z) : result Z :=
  if samples then sample_count_samples r v true else sample_count r v true.
Definition window_step (r : crange) (samples : bool) (win : Z) (overlap step : option Z)
  : result (Z * option Z) :=
  match overlap, step with
  | Some _, Some _ => Err ParameterError
  | _, _ =>
      do w <- count_of r samples win;
      if match step with Some s => s <? 0 | None => false end then Err ParameterError
      else if match overlap with Some s => s <? 0 | None => false end then Err ParameterError
      else
        do st <- match step with Some s => do x <- count_of r samples s; Ok (Some x) | None => Ok None end;
        do ov <- match overlap with Some s => do x <- count_of r samples s; Ok (Some x) | None => Ok None end;
        let st := match st, ov with None, Some o => Some (w - o) | _, _ => st end in
        match st with
        | Some s => if s <=? 0 then Err ParameterError else Ok (w, Some s)
        | None => Ok (w, None)
        end
  end.

(** For each output position along the axis, the first sample of its window, or
    nothing (NaN).

    rolling.py 99-107, 109-131, 143-160: the numpy engine. *)
Definition roll_start (w step : Z) : Z := ceil_div (w - 1) step * step - (w - 1).
Definition numpy_windows (n w step : Z) (center : bool) : result (list (option Z)) :=
  (* sliding_window_view *)
  if (n <? w) || (w <? 0) then Err ValueError
  else
    match slice_positions (n - w + 1) (mkSlice (Some (roll_start w step)) None (Some step)) with
    | None => Err ValueError
    | Some starts =>
        let num_nans := 1 + (w - 2) / step in
        if num_nans =? 0 then Ok (map Some starts)
        else
          let start := if center then num_nans - num_nans / 2 else num_nans in
          Ok (repeat None (Z.to_nat start) ++ map Some starts ++ repeat None (Z.to_nat (num_nans - start)))
    end.

(** rolling.py 186-247: the pandas engine: DataFrame.rolling(window, step=step,
    center=center) with the default min_periods (all of the window): label
    [i] = 0, step, 2 step, ... ends its window at [i], or at [i + (w-1)//2] when
    centred. *)
Definition pandas_windows (n w step : Z) (center : bool) : list (option Z) :=
  map (fun k =>
         let stop := k * step + 1 + (if center then (w - 1) / 2 else 0) in
         let start := stop - w in
         if (0 <=? start) && (stop <=? n) then Some start else None)
      (zrange (ceil_div n step)).

Inductive engine := ENumpy | EPandas.

(** rolling.py 369-377: _get_engine. *)
Definition get_engine (e : option engine) (step : Z) (shape : list Z) : engine :=
  match e with
  | Some e => e
  | None => if (step <? 10) && (zlen (filter (fun n => negb (n =? 1)) shape) <? 2) then EPandas else ENumpy
  end.

(** Apply a function over windows of axis [ax]. *)
Definition nd_windows {A} (a : nd A) (ax : nat) (w : Z) (wins : list (option Z)) (f : list A -> A) (nan : A)
  : option (nd A) :=
  nd_build (put (nd_shape a) ax (zlen wins)) (fun ix =>
    match nth_error ix ax with
    | Some k =>
        match znth wins k with
        | Some (Some s) => option_map f (traverse (fun i => nd_get a (put ix ax (s + i))) (zrange w))
        | Some None => Some nan
        | None => None
        end
    | None => None
    end).

(** rolling.py 51-62: get_coords. *)
Definition rolled_coords (cm : cman) (dim : string) (c : coord) (step : Z) : result cman :=
  if step =? 1 then Ok cm
  else
    do c' <- c_getitem c (IxSlice (mkSlice None None (Some step)));
    cm_update cm [(dim, KSimple (VCoord (M1 c')))].

(** rolling.py 207-213: a one-dimensional patch makes a one-column frame, whose
    values are squeezed back: a single output sample loses its axis. *)
Definition repack {A} (e : engine) (dims : list string) (a : nd A) : nd A :=
  match e, dims with
  | EPandas, [_] => mkNd (filter (fun n => negb (n =? 1)) (nd_shape a)) (nd_flat a)
  | _, _ => a
  end.

(** rolling.py 250-396: patch.rolling(dim=win, ...).apply(f). The output is not
    checked against its coordinates (from_parts). *)
Definition pt_rolling {A} (p : patch A) (dim : string) (win : Z) (overlap step : option Z)
  (center samples : bool) (e : option engine) (f : list A -> A) (nan : A) : result (patch A) :=
  let cm := p_cm p in
  match index_of dim (cm_dims cm), assoc dim (cm_coords cm) with
  | None, _ => Err ParameterError
  | Some ax, Some (M1 (CRange r)) =>
      do ws <- window_step r samples win overlap step;
      let w := fst ws in
      let st := match snd ws with Some s => s | None => 1 end in
      if (w =? 0) || (st =? 0) then Err ParameterError
      else
        let eng := get_engine e st (nd_shape (p_data p)) in
        do wins <- match eng with
                   | ENumpy => numpy_windows (r_len r) w st center
                   | EPandas => if 2 <? zlen (cm_dims cm) then Err ParameterError
                                else if w <? 0 then Err ValueError
                                else Ok (pandas_windows (r_len r) w st center)
                   end;
        match nd_windows (p_data p) ax w wins f nan with
        | None => Err IndexError
        | Some a => do cm' <- rolled_coords cm dim (CRange r) st; Ok (mkPatch cm' (repack eng (cm_dims cm) a))
        end
  | _, _ => Err CoordError
  end.
