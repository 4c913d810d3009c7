(** Model of tapering: dascore/proc/taper.py, with get_dim_axis_value
    (utils/patch.py 594-679) for keywords only.

    Window values are exact rationals and the product of a sample and a window value
    is any function. A window function is any function from a length to a list; scipy
    gives lists of the length asked for. Amounts are in the units of the coordinate.
    Not modelled: tapers along unevenly sampled coordinates in taper_range (the curve
    is interpolated), a single length for both ends (the pair of it), percentages,
    and fractions of an integer coordinate's range that are no
    integers. *)
From Verif Require Import Base CoordModel NdModel FrameModel ChunkModel CmModel ProcModel.
From Coq Require Import Strings.String QArith Qabs.
Local Open Scope Z_scope.
Local Open Scope list_scope.

(** utils/patch.py 654-679: the one dimension named by the keywords. *)
Definition one_dim {V} (dims : list string) (kw : list (string * V)) : result (string * V) :=
  match filter (fun e => mem (fst e) dims) kw with
  | [e] => match kw with [_] => Ok e | _ => Err PatchCoordinateError end
  | _ => Err ParameterError
  end.

Section Taper.
Context {A : Type} (mul : A -> Q -> A).

(** [out[inds] = out[inds] * window[None, :, None]] where [inds] slices one axis
    (taper.py 125-127, 131-133). *)
Definition scale_slice (a : nd A) (ax : nat) (s : pyslice) (w : list Q) : result (nd A) :=
  match nth_error (nd_shape a) ax with
  | None => Err IndexError
  | Some n =>
      match slice_positions n s with
      | None => Err ValueError
      | Some ps =>
          if negb ((zlen w =? zlen ps) || (zlen w =? 1)) then Err ValueError
          else
            match nd_build (nd_shape a) (fun ix =>
              match nth_error ix ax, nd_get a ix with
              | Some i, Some x =>
                  match find_pos i ps with
                  | Some k => option_map (mul x) (znth w (if zlen w =? 1 then 0 else k))
                  | None => Some x
                  end
              | _, _ => None
              end) with
            | Some b => Ok b
            | None => Err IndexError
            end
      end
  end.

(** ** taper *)

(** The length of one taper: in coordinate units (a quantity or a timedelta), or as a
    fraction of the range. *)
Inductive tamount := TAbs (z : Z) | TFrac (num den : Z).
(** taper.py 32-36. A timedelta times a float is truncated. *)
Definition taper_amount (c : coord) (dur : Z) (v : tamount) : result Z :=
  match v with
  | TAbs z => Ok z
  | TFrac n d =>
      match c_kind c with
      | KTime => Ok (Z.quot (n * dur) d)
      | KInt => if (n * dur) mod d =? 0 then Ok (n * dur / d) else Err Unmodelled
      end
  end.
Definition opt_amount (c : coord) (dur : Z) (v : option tamount) : result (option Z) :=
  match v with Some v => do z <- taper_amount c dur v; Ok (Some z) | None => Ok None end.
(** An array has no start and stop. *)
Definition slice_of (ix : indexer) : result pyslice :=
  match ix with IxSlice s => Ok s | _ => Err AttributeError end.
(** taper.py 21-40: _get_taper_slices; the slices are only looked at in
    _validate_windows. *)
Definition taper_slices (c : coord) (v : option tamount * option tamount)
  : result ((option Z * option Z) * (indexer * indexer)) :=
  do dur <- coord_range c false;
  do start <- opt_amount c dur (fst v);
  do stop <- opt_amount c dur (snd v);
  let stop := option_map Z.opp stop in
  do x1 <- c_select c true None start;
  do x2 <- c_select c true stop None;
  Ok ((start, stop), (snd x1, snd x2)).

Definition given {V} (o : option V) : bool := match o with Some _ => true | None => false end.
(** taper.py 43-60: _validate_windows. *)
Definition validate_windows (samps : option Z * option Z) (s1 s2 : pyslice) (n : Z) : result unit :=
  let start_ind := sl_stop s1 in
  let end_ind := sl_start s2 in
  let bad_start := given (fst samps) && match start_ind with None => true | Some i => i <? 0 end in
  let bad_end := given (snd samps) && match end_ind with None => true | Some i => n <? i end in
  if bad_start || bad_end then Err ParameterError
  else match start_ind, end_ind with
       | Some i, Some j => if j <? i then Err ParameterError else Ok tt
       | _, _ => Ok tt
       end.
Definition py_take {V} (l : list V) (start stop : option Z) : list V :=
  match np_index l (IxSlice (mkSlice start stop None)) with Some r => r | None => [] end.

(** taper.py 63-134: taper. [win] looks up scipy's window function. *)
Definition pt_taper (win : string -> option (Z -> list Q)) (p : patch A) (wt : string)
  (kw : list (string * (option tamount * option tamount))) : result (patch A) :=
  match win wt with
  | None => Err ParameterError
  | Some func =>
      do e <- one_dim (cm_dims (p_cm p)) kw;
      do ax <- axis_of (p_cm p) (fst e);
      match assoc (fst e) (cm_coords (p_cm p)) with
      | Some (M1 c) =>
          do x <- taper_slices c (snd e);
          let samps := fst x in
          do s1 <- slice_of (fst (snd x));
          do s2 <- slice_of (snd (snd x));
          match nth_error (nd_shape (p_data p)) ax with
          | None => Err IndexError
          | Some n =>
              do _ <- validate_windows samps s1 s2 n;
              do a1 <- match fst samps, sl_stop s1 with
                       | None, _ => Ok (p_data p)
                       | Some _, Some val => scale_slice (p_data p) ax s1 (py_take (func (2 * val)) None (Some val))
                       | Some _, None => Err TypeError
                       end;
              do a2 <- match snd samps, sl_start s2 with
                       | None, _ => Ok a1
                       | Some _, Some i => scale_slice a1 ax s2 (py_take (func (2 * (n - i))) (Some (n - i)) None)
                       | Some _, None => Err TypeError
                       end;
              new_patch (p_cm p) a2
          end
      | _ => Err KeyError
      end
  end.

(** ** taper_range *)

(** One sequence of values ([None] for None and ...), or several. *)
Inductive trarg := TOne (l : list (option Z)) | TMany (l : list (list (option Z))).

(** coords.py 872-950 for one value. *)
Definition next1 (c : coord) (relative samples : bool) (v : Z) : result Z :=
  do l <- (if samples then next_index_samples c [v] false
           else do l <- rel_values c relative [v]; next_index c l false);
  match l with i :: _ => Ok i | [] => Err IndexError end.
(** taper.py 137-162: _get_taper_coord_inds for one sequence. *)
Definition range_inds (c : coord) (relative samples : bool) (l : list (option Z)) : result (list Z) :=
  let n := zlen l in
  if negb ((n =? 2) || (n =? 4)) then Err ParameterError
  else
    do out <- map_result (fun e =>
                match snd e with
                | None => if n =? 2 then Err ParameterError
                          else Ok (if 2 * fst e <? n then 0 else c_len c - 1)
                | Some v => next1 c relative samples v
                end) (combine (zrange n) l);
    Ok (if n =? 2 then [0] ++ out ++ [c_len c] else out).
Definition range_sets (c : coord) (relative samples : bool) (v : trarg) : result (list (list Z)) :=
  match v with
  | TOne l => do x <- range_inds c relative samples l; Ok [x]
  | TMany [] => Err ParameterError
  | TMany ls => map_result (range_inds c relative samples) ls
  end.

(** taper.py 165-180: _get_taper_curve of an evenly sampled coordinate. scipy
    refuses negative lengths. *)
Definition taper_curve (func : Z -> list Q) (c : coord) (i1 i2 : Z) (reverse : bool) : result (list Q) :=
  let samps := i2 - i1 in
  if samps * 2 + 1 <? 0 then Err ValueError
  else if negb (c_evenly c) then Err Unmodelled
  else
    let t := py_take (func (samps * 2 + 1)) None (Some samps) in
    Ok (if reverse then rev t else t).
(** [out[lo:hi] += l] for positions within bounds. *)
Definition add_at (out : list Q) (lo hi : Z) (l : list Q) : list Q :=
  map (fun e => if (lo <=? fst e) && (fst e <? hi)
                then match znth l (fst e - lo) with Some y => (snd e + y)%Q | None => snd e end
                else snd e) (combine (zrange (zlen out)) out).
Definition add_set (func : Z -> list Q) (c : coord) (out : list Q) (set : list Z) : result (list Q) :=
  match set with
  | [i1; i2; i3; i4] =>
      do up <- taper_curve func c i1 i2 false;
      do down <- taper_curve func c i3 i4 true;
      let out := add_at out i1 i2 up in
      let out := add_at out i3 i4 down in
      Ok (add_at out i2 i3 (repeat 1%Q (Z.to_nat (i3 - i2))))
  | _ => Err AssertionError
  end.
Definition Qmax' (a b : Q) : Q := if Qle_bool a b then b else a.
Definition list_qmax (l : list Q) : option Q := match l with [] => None | x :: t => Some (fold_left Qmax' t x) end.
(** taper.py 183-197: _get_range_envelope. *)
Definition range_envelope (func : Z -> list Q) (c : coord) (sets : list (list Z)) (invert : bool) : result (list Q) :=
  do out <- fold_left (fun acc s => do o <- acc; add_set func c o s) sets (Ok (repeat 0%Q (Z.to_nat (c_len c))));
  if invert then
    match list_qmax out with
    | Some m => Ok (map (fun x => Qabs (x - m)) out)
    | None => Err ValueError
    end
  else Ok out.
(** taper.py 200-290: taper_range. *)
Definition pt_taper_range (win : string -> option (Z -> list Q)) (p : patch A) (wt : string)
  (invert relative samples : bool) (kw : list (string * trarg)) : result (patch A) :=
  do e <- one_dim (cm_dims (p_cm p)) kw;
  do ax <- axis_of (p_cm p) (fst e);
  match assoc (fst e) (cm_coords (p_cm p)) with
  | Some (M1 c) =>
      if negb (c_sorted c || c_reverse_sorted c) then Err CoordError
      else
        do sets <- range_sets c relative samples (snd e);
        match win wt with
        | None => Err ParameterError
        | Some func =>
            do env <- range_envelope func c sets invert;
            do a <- scale_slice (p_data p) ax (mkSlice None None None) env;
            new_patch (p_cm p) a
        end
  | _ => Err CoordError
  end.
End Taper.
