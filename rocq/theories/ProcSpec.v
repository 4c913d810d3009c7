(** Specification vocabulary for operations that move samples along a dimension. *)
From Verif Require Import Base CoordModel CoordSpec NdModel NdSpec FrameModel CmModel CmSpec ProcModel.
From Coq Require Import Strings.String.
Local Open Scope Z_scope.
Local Open Scope list_scope.

(** A position, by dimension name, within the patch; and the same position with
    another index along one dimension. *)
Definition within (cm : cman) (ds : list string) (pos : string -> Z) : Prop :=
  forall d, In d ds -> exists n, dim_len cm d n /\ 0 <= pos d < n.
Definition in_patch {A} (p : patch A) (pos : string -> Z) : Prop := within (p_cm p) (cm_dims (p_cm p)) pos.
Definition at_dim (pos : string -> Z) (d : string) (i : Z) : string -> Z :=
  fun x => if String.eqb x d then i else pos x.

(** A coordinate in the form the manager stores it (inferring it again changes
    nothing). *)
Definition settled (m : mcoord) : Prop := recoord m = Ok m.

(** [p'] is [p] with coordinate [c'] along [dim]: same dimensions, every other
    coordinate unchanged unless it belongs to [dim], whose length changed. *)
Record refit {A} (p p' : patch A) (dim : string) (c c' : coord) : Prop :=
  { rf_wf : wf_patch p';
    rf_dims : cm_dims (p_cm p') = cm_dims (p_cm p);
    rf_dim : assoc dim (cm_coords (p_cm p')) = Some (M1 c');
    rf_coords : forall n m, n <> dim -> assoc n (cm_coords (p_cm p)) = Some m ->
      match assoc n (cm_coords (p_cm p')) with
      | Some m' => carried m m' (full (m_shape m)) /\ assoc n (cm_dmap (p_cm p')) = assoc n (cm_dmap (p_cm p))
      | None => In dim (dims_of (p_cm p) n) /\ c_len c <> c_len c'
      end;
    rf_same : forall n m, n <> dim -> assoc n (cm_coords (p_cm p)) = Some m -> settled m ->
      ~ (In dim (dims_of (p_cm p) n) /\ c_len c <> c_len c') -> assoc n (cm_coords (p_cm p')) = Some m;
    rf_new : forall n, assoc n (cm_coords (p_cm p)) = None -> assoc n (cm_coords (p_cm p')) = None }.

(** The value of coordinate [name] at a position. *)
Definition coord_value (cm : cman) (name : string) (pos : string -> Z) (v : Z) : Prop :=
  match assoc name (cm_coords cm) with
  | Some (M1 c) => match dims_of cm name with
                   | [d] => znth (c_values c) (pos d) = Some (Some v)
                   | _ => False
                   end
  | Some (MN _ a) => nd_get a (map pos (dims_of cm name)) = Some v
  | _ => False
  end.

(** ** Alignment *)

(** How many samples a trace whose shift coordinate holds [v] is moved: the value
    itself when shifts are in samples; otherwise the smallest number of steps
    that reaches |v| ([trunc]: the largest that does not exceed it). *)
Definition trace_shift (step : Z) (samples reverse trunc : bool) (v s : Z) : Prop :=
  exists a, s = a * (Z.sgn v * (if reverse then -1 else 1)) /\ 0 <= a /\
    if samples then a = Z.abs v
    else if trunc then a * step <= Z.abs v < (a + 1) * step
    else (a - 1) * step < Z.abs v <= a * step.

(** The output covers samples [lo .. n + hi) of the input's own time line. *)
Definition mode_span (m : amode) (S : Z -> Prop) (lo hi : Z) : Prop :=
  match m with
  | Full => (S lo /\ forall s, S s -> lo <= s) /\ (S hi /\ forall s, S s -> s <= hi)
  | Same => lo = 0 /\ hi = 0
  | Valid => (0 <= lo /\ (lo = 0 \/ S lo) /\ forall s, S s -> s <= lo) /\
             (hi <= 0 /\ (hi = 0 \/ S hi) /\ forall s, S s -> hi <= s)
  end.

(** Shift values given as plain numbers are seconds along a time dimension. *)
Definition shift_unit (dk ck : kind) (samples : bool) : Z :=
  match samples, dk, ck with false, KTime, KInt => 1000000000 | _, _, _ => 1 end.
Definition coord_kind (m : mcoord) : kind := match m with M1 c => c_kind c | MN k _ => k | MNP _ => KInt end.

(** The shift of the trace at a position. *)
Definition moved (cm : cman) (r : crange) (name : string) (samples reverse trunc : bool) (pos : string -> Z) (s : Z) : Prop :=
  exists m v, assoc name (cm_coords cm) = Some m /\ coord_value cm name pos v /\
    trace_shift (r_step r) samples reverse trunc (shift_unit (r_kind r) (coord_kind m) samples * v) s.
(** Some shift is longer than the dimension. *)
Definition far (cm : cman) (r : crange) (name : string) : Prop :=
  exists m pos v, assoc name (cm_coords cm) = Some m /\ within cm (dims_of cm name) pos /\ coord_value cm name pos v /\
    r_max r - r_min r < Z.abs (shift_unit (r_kind r) (coord_kind m) false * v).

(** [p'] is [p] with its traces moved by their shifts, cut to the mode's span. *)
Record aligned {A} (p p' : patch A) (m : amode) (samples reverse trunc : bool) (fill : A) (dim name : string)
  (r : crange) (c' : coord) (lo hi : Z) : Prop :=
  { al_refit : refit p p' dim (CRange r) c';
    al_size : 0 <= r_len r + hi - lo;
    al_coord : c_values c' = map Some (progression (r_start r + lo * r_step r) (r_step r) (r_len r + hi - lo));
    al_span : mode_span m (fun s => exists pos, within (p_cm p) (dims_of (p_cm p) name) pos /\
                moved (p_cm p) r name samples reverse trunc pos s) lo hi;
    al_data : forall pos, in_patch p' pos ->
      exists s, moved (p_cm p) r name samples reverse trunc pos s /\
        data_at p' pos =
          let i := pos dim + lo - s in
          if (0 <=? i) && (i <? r_len r) then data_at p (at_dim pos dim i) else Some fill }.

(** Shift coordinates that can be used at all: samples must be integers, and a
    plain dimension cannot be shifted by times. *)
Definition kinds_fit (dk ck : kind) (samples : bool) : Prop :=
  match samples, dk, ck with true, _, KTime | false, KInt, KTime => False | _, _, _ => True end.
Definition has_values (m : mcoord) : Prop := match m with M1 (CPart _) | MNP _ => False | _ => True end.

(** ** Pad *)
(** Whole samples needed for a length [d]. *)
Definition rounds_up (step d k : Z) : Prop := 0 <= d /\ (k - 1) * step < d <= k * step.
(** Samples to add before and after for one keyword value. [fast] is the fast
    Fourier length. *)
Definition pad_width (fast : Z -> Z) (samples : bool) (r : crange) (v : padval) (w : Z * Z) : Prop :=
  match v, samples with
  | PadFft, _ => w = (0, fast (r_len r) - r_len r)
  | PadCorrelate, _ => w = (0, fast (2 * r_len r - 1) - r_len r)
  | PadPair a b, true => w = (a, b) /\ 0 <= a /\ 0 <= b
  | PadPair a b, false => rounds_up (r_step r) a (fst w) /\ rounds_up (r_step r) b (snd w)
  end.
(** The same position counted from the first sample of the unpadded patch. *)
Definition unpad (w : string -> option (Z * Z)) (pos : string -> Z) : string -> Z :=
  fun d => match w d with Some (a, _) => pos d - a | None => pos d end.

Record padded {A} (p p' : patch A) (fill : A) (w : string -> option (Z * Z)) : Prop :=
  { pd_wf : wf_patch p';
    pd_dims : cm_dims (p_cm p') = cm_dims (p_cm p);
    pd_coords : forall d a b, w d = Some (a, b) -> exists r r',
      assoc d (cm_coords (p_cm p)) = Some (M1 (CRange r)) /\ assoc d (cm_coords (p_cm p')) = Some (M1 (CRange r')) /\
      wf_range r' /\ r_kind r' = r_kind r /\ r_step r' = r_step r /\
      r_start r' = r_start r - a * r_step r /\ r_len r' = a + r_len r + b;
    pd_others : forall n m, w n = None -> assoc n (cm_coords (p_cm p)) = Some m ->
      match assoc n (cm_coords (p_cm p')) with
      | Some m' => carried m m' (full (m_shape m)) /\ assoc n (cm_dmap (p_cm p')) = assoc n (cm_dmap (p_cm p)) /\
                   (settled m -> m' = m)
      | None => exists d a b, In d (dims_of (p_cm p) n) /\ w d = Some (a, b) /\ a + b <> 0
      end;
    pd_new : forall n, assoc n (cm_coords (p_cm p)) = None -> assoc n (cm_coords (p_cm p')) = None;
    pd_data : forall pos, in_patch p' pos ->
      (in_patch p (unpad w pos) -> data_at p' pos = data_at p (unpad w pos)) /\
      (~ in_patch p (unpad w pos) -> data_at p' pos = Some fill) }.

(** ** Rolling *)
(** Sample counts asked for, as numbers of samples or as lengths. *)
Definition counts (r : crange) (samples : bool) (v k : Z) : Prop :=
  k <= r_len r /\ if samples then v = k /\ 0 <= k else rounds_up (r_step r) v k.
Definition asks (r : crange) (samples : bool) (win : Z) (overlap step : option Z) (w st : Z) : Prop :=
  counts r samples win w /\
  match overlap, step with
  | None, None => st = 1
  | Some o, None => exists k, counts r samples o k /\ st = w - k
  | None, Some s => counts r samples s st
  | Some _, Some _ => False
  end.

(** Distance from the label of a window to its last sample. *)
Definition label_offset (e : engine) (center : bool) (w st : Z) : Z :=
  match center, e with
  | false, _ => 0
  | true, EPandas => (w - 1) / 2
  | true, ENumpy => st * (((w - 2) / st + 1) / 2)
  end.

(** Output [k] is [f] of the [w] samples up to and including [k st + off]. *)
Record rolled {A} (p p' : patch A) (dim : string) (r : crange) (w st off : Z) (f : list A -> A) (nan : A) (c' : coord) : Prop :=
  { ro_refit : refit p p' dim (CRange r) c';
    ro_coord : c_values c' = map Some (progression (r_start r) (st * r_step r) ((r_len r + st - 1) / st));
    ro_data : forall pos, in_patch p' pos ->
      let last := pos dim * st + off in
      (w - 1 <= last < r_len r -> exists vs, zlen vs = w /\
         (forall i, 0 <= i < w -> znth vs i = data_at p (at_dim pos dim (last - (w - 1) + i)) /\ znth vs i <> None) /\
         data_at p' pos = Some (f vs)) /\
      (last < w - 1 \/ r_len r <= last -> data_at p' pos = Some nan) }.

(** The position of a sample after padding. *)
Definition pad_pos (w : string -> option (Z * Z)) (pos : string -> Z) : string -> Z :=
  fun d => match w d with Some (a, _) => pos d + a | None => pos d end.

(** What pad is asked to do: distinct dimensions with ascending even sampling. *)
Definition pad_ask {A} (p : patch A) (fast : Z -> Z) (samples : bool) (kw : list (string * padval)) (w : string -> option (Z * Z)) : Prop :=
  forall d, match assoc d kw with
            | Some v => In d (cm_dims (p_cm p)) /\ exists r x, assoc d (cm_coords (p_cm p)) = Some (M1 (CRange r)) /\
                0 < r_step r /\ pad_width fast samples r v x /\ w d = Some x
            | None => w d = None
            end.

(** The roller that is used can handle the patch, and keeps its axes. *)
Definition roller_fits {A} (p : patch A) (eng : engine) (N : Z) : Prop :=
  match eng with EPandas => zlen (cm_dims (p_cm p)) = 2 \/ zlen (cm_dims (p_cm p)) = 1 /\ N <> 1 | ENumpy => True end.
