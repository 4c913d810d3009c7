(** Specification vocabulary for the Fourier properties (C48). *)
From Verif Require Import Base BaseFacts CoordModel CoordSpec NdModel NdSpec FrameModel ChunkModel
  CmModel CmSpec ProcModel ProcSpec FourierModel.
From Coq Require Import Strings.String Sorting.Permutation.
Local Open Scope Z_scope.
Local Open Scope list_scope.

(** The frequency of bin [k] of a transform of length [n], in units of
    1 / (n |dx|): the first half of the bins are positive frequencies, the rest
    negative ones (documentation of numpy.fft.fftfreq). *)
Definition freq (n k : Z) : Z := if 2 * k <? n then k else k - n.

(** Entry [i] of the shifted order holds bin ... *)
Definition shifted_bin (n i : Z) : Z := (i - n / 2) mod n.

(** The name contains no part that makes it look like a limit keyword of update. *)
Definition unlimited (d : string) : Prop :=
  str_contains "_step" d = false /\ str_contains "_min" d = false /\ str_contains "_max" d = false.

(** Names of transformed dimensions are free and ordinary. *)
Definition free_names (cm : cman) (ds : list string) : Prop :=
  forall d, In d ds -> str_prefix "ift_" d = false /\ unlimited d /\ unlimited ("ft_" ++ d) /\
    assoc ("ft_" ++ d)%string (cm_coords cm) = None /\ assoc ("_" ++ d ++ "_unpadded")%string (cm_coords cm) = None.

(** Every coordinate is in the form the manager stores. *)
Definition all_settled (cm : cman) : Prop := forall n m, assoc n (cm_coords cm) = Some m -> settled m.

(** A coordinate that is not transformed itself but lies along a transformed
    dimension. *)
Definition along (cm : cman) (ds : list string) (n : string) : Prop :=
  ~ In n ds /\ exists d, In d (dims_of cm n) /\ In d ds.

(** The values of the frequency coordinate of dimension [d]. *)
Definition bins (n step : Z) (real : bool) : list Z :=
  if real then map (fun i => Z.sgn step * i) (zrange (n / 2 + 1))
  else map (fun i => Z.sgn step * freq n (shifted_bin n i)) (zrange n).

(** [cm'] is the manager of the transform of [cm] over [ds]: transformed
    dimensions are renamed and get the frequencies of their bins, their old
    coordinate is kept without dimension, other coordinates along them are
    dropped, everything else is as before. [orig]: coordinates before padding. *)
Record transformed (cm cm' : cman) (ds : list string) (real : option string) (orig : option cman) : Prop :=
  { tr_wf : wf_cm cm';
    tr_dims : cm_dims cm' = map (fun d => if mem d ds then ("ft_" ++ d)%string else d) (cm_dims cm);
    tr_ft : forall d r, In d ds -> assoc d (cm_coords cm) = Some (M1 (CRange r)) ->
      exists f, assoc ("ft_" ++ d)%string (cm_coords cm') = Some (M1 (CRange f)) /\ wf_range f /\
        r_values f = bins (r_len r) (r_step r) (match real with Some x => String.eqb d x | None => false end);
    tr_old : forall d, In d ds -> assoc d (cm_coords cm') = assoc d (cm_coords cm) /\ assoc d (cm_dmap cm') = Some [];
    tr_orig : forall o d, orig = Some o -> In d ds ->
      assoc ("_" ++ d ++ "_unpadded")%string (cm_coords cm') = assoc d (cm_coords o) /\
      assoc ("_" ++ d ++ "_unpadded")%string (cm_dmap cm') = Some [];
    tr_along : forall n, along cm ds n -> assoc n (cm_coords cm') = None;
    tr_rest : forall n, ~ In n ds -> ~ along cm ds n ->
      (forall d, In d ds -> n <> ("ft_" ++ d)%string /\ (orig <> None -> n <> ("_" ++ d ++ "_unpadded")%string)) ->
      assoc n (cm_coords cm') = assoc n (cm_coords cm) /\ assoc n (cm_dmap cm') = assoc n (cm_dmap cm) }.

(** [cm'] is [cm] again, except that coordinates lying along a dimension of [ds]
    (the dimensions themselves apart) are gone. *)
Record restored (cm cm' : cman) (ds : list string) : Prop :=
  { rs_wf : wf_cm cm';
    rs_dims : cm_dims cm' = cm_dims cm;
    rs_along : forall n, along cm ds n -> assoc n (cm_coords cm') = None;
    rs_rest : forall n, ~ along cm ds n ->
      assoc n (cm_coords cm') = assoc n (cm_coords cm) /\ assoc n (cm_dmap cm') = assoc n (cm_dmap cm) }.

(** ** What is assumed of numpy's transforms and of scaling, for arrays of one shape *)
Definition fits {A} (s : list Z) (a : nd A) : Prop := wf_nd a /\ nd_shape a = s.
Definition axes_of (s : list Z) (axes : list nat) : Prop :=
  NoDup axes /\ forall ax, In ax axes -> (ax < List.length s)%nat.
Definition sizes_at (s : list Z) (axes : list nat) : list Z := map (fun ax => nth ax s 0) axes.
(** The complex transform keeps the shape, the real one keeps the non-negative
    frequencies of its last axis; given the lengths, the inverse transforms give
    back the array, in whatever order the other axes are named; data must be
    [good] (real valued) for the real transform. *)
Record fft_contract {A} (s : list Z) (good : A -> Prop) (fftn rfftn : list nat -> nd A -> nd A)
  (ifftn irfftn : option (list Z) -> list nat -> nd A -> nd A) (scale unscale : Z -> A -> A) : Prop :=
  { fc_fft : forall axes a, fits s a -> axes_of s axes -> fits s (fftn axes a);
    fc_rfft : forall axes x a, fits s a -> axes_of s (axes ++ [x]) ->
      fits (put s x (nth x s 0 / 2 + 1)) (rfftn (axes ++ [x]) a);
    fc_ifft : forall axes axes' a, fits s a -> axes_of s axes -> Permutation axes axes' ->
      ifftn (Some (sizes_at s axes')) axes' (fftn axes a) = a;
    fc_irfft : forall axes axes' x a, fits s a -> Forall good (nd_flat a) -> axes_of s (axes ++ [x]) ->
      Permutation axes axes' ->
      irfftn (Some (sizes_at s (axes' ++ [x]))) (axes' ++ [x]) (rfftn (axes ++ [x]) a) = a;
    fc_scale : forall k x, k <> 0 -> unscale k (scale k x) = x }.

(** The dimension that gets the real transform. *)
Definition real_dim (real : realarg) (ds : list string) : option string :=
  match real with
  | RNo => None
  | RLast => match rev ds with d :: _ => Some d | [] => None end
  | RName d => if mem d ds then Some d else None
  end.

(** Distinct, evenly sampled dimensions. *)
Definition even_dims_of (cm : cman) (ds : list string) : Prop :=
  NoDup ds /\ ds <> [] /\
  forall d, In d ds -> In d (cm_dims cm) /\ exists r, assoc d (cm_coords cm) = Some (M1 (CRange r)).

(** The inverse transform tells a real transform from a complex one by the first
    frequency being zero. It can: *)
Definition tells (r : crange) (n : Z) (real : bool) : Prop :=
  if real then 0 < r_step r \/ n = 1 else 0 < r_step r /\ 2 <= n \/ 3 <= n.
Definition told (cm : cman) (ds : list string) (rn : option string) (len : crange -> Z) : Prop :=
  forall d r, In d ds -> assoc d (cm_coords cm) = Some (M1 (CRange r)) ->
    tells r (len r) (match rn with Some x => String.eqb d x | None => false end).

(** The names given to the inverse transform: the dimensions by their old or new
    name in any order, or nothing if no other dimension looks transformed. *)
Definition asked_back (cm : cman) (ds : list string) (names : option (list string)) : Prop :=
  match names with
  | Some l => exists ds', Permutation ds ds' /\ Forall2 (fun d n => n = d \/ n = ("ft_" ++ d)%string) ds' l
  | None => forall d, In d (cm_dims cm) -> str_prefix "ft_" d = false
  end.

(** The dimensions a call transforms. *)
Definition asked_dims (cm : cman) (dim : option (list string)) : list string :=
  match dim with Some l => l | None => cm_dims cm end.
(** The shape that is transformed: with padding, transformed dimensions are
    brought to their fast length first. *)
Definition dft_shape (fast : Z -> Z) (pad : bool) (cm : cman) (ds : list string) (s : list Z) : list Z :=
  map (fun x => if pad && mem (fst x) ds then fast (snd x) else snd x) (combine (cm_dims cm) s).
Definition fft_pad (fast : Z -> Z) (cm : cman) (ds : list string) (d : string) : option (Z * Z) :=
  if mem d ds then match assoc d (cm_coords cm) with
                   | Some (M1 (CRange r)) => Some (0, fast (r_len r) - r_len r) | _ => None end
  else None.

(** The output array is the transform over the asked dimensions (the real one
    last), scaled by the product of the steps, with the bins of each dimension in
    shifted order; the bins of the real dimension are in order. *)
Definition transform_data {A} (fftn rfftn : list nat -> nd A -> nd A) (scale : Z -> A -> A)
  (cm : cman) (ds : list string) (rn : option string) (a out : nd A) : Prop :=
  exists order axes steps, Permutation ds order /\ (forall x, rn = Some x -> order = removelast order ++ [x]) /\
    Forall2 (fun d ax => nth_error (cm_dims cm) ax = Some d) order axes /\
    Forall2 (fun d s => exists r, assoc d (cm_coords cm) = Some (M1 (CRange r)) /\ s = r_step r) order steps /\
    let f := (match rn with Some _ => rfftn | None => fftn end) axes a in
    nd_shape out = nd_shape f /\
    forall ix, inb (nd_shape f) ix -> exists jx, inb (nd_shape f) jx /\
      nd_get out ix = option_map (scale (prod steps)) (nd_get f jx) /\
      forall i d n x, nth_error (cm_dims cm) i = Some d -> nth_error (nd_shape f) i = Some n -> nth_error ix i = Some x ->
        nth_error jx i = Some (if mem d ds && negb (match rn with Some y => String.eqb d y | None => false end)
                               then shifted_bin n x else x).

(** The patch after a padded transform and back: same data, dimensions and
    dimension coordinates; other coordinates as [restored], possibly rebuilt. *)
Record back {A} (p p' : patch A) (ds : list string) : Prop :=
  { bk_wf : wf_patch p';
    bk_dims : cm_dims (p_cm p') = cm_dims (p_cm p);
    bk_data : p_data p' = p_data p;
    bk_dim : forall d r, In d ds -> assoc d (cm_coords (p_cm p)) = Some (M1 (CRange r)) ->
      exists c, assoc d (cm_coords (p_cm p')) = Some (M1 c) /\ c_values c = map Some (r_values r);
    bk_along : forall n, along (p_cm p) ds n -> assoc n (cm_coords (p_cm p')) = None;
    bk_rest : forall n, ~ In n ds -> ~ along (p_cm p) ds n ->
      match assoc n (cm_coords (p_cm p)), assoc n (cm_coords (p_cm p')) with
      | Some m, Some m' => carried m m' (full (m_shape m)) /\ assoc n (cm_dmap (p_cm p')) = assoc n (cm_dmap (p_cm p))
      | None, None => True
      | _, _ => False
      end }.

(** [p'] is [p] with the dimension [d] (of [r_len r] samples) turned into lags:
    the sample at position x is taken from position (x - n/2) mod n, its lag is
    (x - n/2) steps, and everything else is as before. *)
Record lagged {A} (unscale : Z -> A -> A) (p p' : patch A) (d : string) (r : crange) (undo : bool) : Prop :=
  { lg_wf : wf_patch p';
    lg_dims : cm_dims (p_cm p') = map (fun e => if String.eqb e d then ("lag_" ++ d)%string else e) (cm_dims (p_cm p));
    lg_coord : exists c, assoc ("lag_" ++ d)%string (cm_coords (p_cm p')) = Some (M1 c) /\
      c_values c = map (fun i => Some ((i - r_len r / 2) * r_step r)) (zrange (r_len r));
    lg_rest : forall n, n <> d -> n <> ("lag_" ++ d)%string ->
      match assoc n (cm_coords (p_cm p)), assoc n (cm_coords (p_cm p')) with
      | Some m, Some m' => carried m m' (full (m_shape m)) /\ assoc n (cm_dmap (p_cm p')) =
          option_map (map (fun e => if String.eqb e d then ("lag_" ++ d)%string else e)) (assoc n (cm_dmap (p_cm p)))
      | None, None => True
      | _, _ => False
      end;
    lg_shape : nd_shape (p_data p') = nd_shape (p_data p);
    lg_data : forall ix, inb (nd_shape (p_data p)) ix -> exists jx, inb (nd_shape (p_data p)) jx /\
      nd_get (p_data p') ix = option_map (fun x => if undo then unscale (r_step r) x else x) (nd_get (p_data p) jx) /\
      forall i e n x, nth_error (cm_dims (p_cm p)) i = Some e -> nth_error (nd_shape (p_data p)) i = Some n -> nth_error ix i = Some x ->
        nth_error jx i = Some (if String.eqb e d then shifted_bin n x else x) }.
