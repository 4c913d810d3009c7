(** Model of the discrete Fourier transform of a patch and back, and of the lag
    coordinate of a correlation: transform/fourier.py, utils/transformatter.py and
    proc/correlate.py. The transforms of numpy are parameters ([fftn] ...), so is
    scaling by the product of the coordinate steps; units, attributes other than
    the padding flag, and output other than "FFT" are left out.

    A frequency coordinate has the values [k / (n dx)]; it is modelled by the
    integers [k] times the sign of [dx], i.e. in units of [1 / (n |dx|)]. *)
From Verif Require Import Base CoordModel NdModel FrameModel ChunkModel CmModel ProcModel.
From Coq Require Import Strings.String.
Local Open Scope string_scope.
Local Open Scope list_scope.
Local Open Scope Z_scope.

(** ** Names (utils/transformatter.py 15-25, 37-41) *)
Definition ft_name (d : string) : string :=
  if str_prefix "ift_" d then str_drop 4 d else ("ft_" ++ d)%string.
Definition ift_name (d : string) : string :=
  if str_prefix "ft_" d then str_drop 3 d else ("ift_" ++ d)%string.
(** transformatter.py 27-34: rename the dimensions at some positions. *)
Fixpoint rename_at (f : string -> string) (dims : list string) (axes : list nat) : list string :=
  match axes with
  | [] => dims
  | ax :: t => match nth_error dims ax with
               | Some d => rename_at f (put dims ax (f d)) t
               | None => rename_at f dims t end
  end.
Definition unpadded_name (d : string) : string := ("_" ++ d ++ "_unpadded")%string.

(** ** The frequency coordinate (fourier.py 96-103) *)
Definition fft_coord (n step : Z) (real : bool) : result coord :=
  let sg := Z.sgn step in
  let start := if real then 0 else - (n / 2) * sg in
  let stop := (if real then n / 2 + 1 else (n - 1) / 2 + 1) * sg in
  do r <- mk_range KInt start stop sg; Ok (CRange r).

(** ** np.roll, fftshift and ifftshift: one shift per axis *)
Definition roll_ix (shape shifts ix : list Z) : list Z :=
  map (fun x => (snd x - snd (fst x)) mod fst (fst x)) (combine (combine shape shifts) ix).
Definition nd_roll {A} (a : nd A) (shifts : list Z) : option (nd A) :=
  nd_build (nd_shape a) (fun ix => nd_get a (roll_ix (nd_shape a) shifts ix)).
Definition shifts_on (f : Z -> Z) (shape : list Z) (axes : list nat) : list Z :=
  map (fun x => if existsb (Nat.eqb (fst x)) axes then f (snd x) else 0)
      (combine (seq 0 (List.length shape)) shape).
Definition fftshift {A} (a : nd A) (axes : list nat) : option (nd A) :=
  nd_roll a (shifts_on (fun n => n / 2) (nd_shape a) axes).
Definition ifftshift {A} (a : nd A) (axes : list nat) : option (nd A) :=
  nd_roll a (shifts_on (fun n => - (n / 2)) (nd_shape a) axes).

(** A patch and its attribute [_dft_padded]. *)
Record fpatch (A : Type) := mkF { f_patch : patch A; f_padded : bool }.
Arguments mkF {A} f_patch f_padded.
Arguments f_patch {A} f.
Arguments f_padded {A} f.

Inductive realarg := RNo | RLast | RName (d : string).

(** Move one name to the end of a list ([dims.append(dims.pop(dims.index(r)))]). *)
Definition to_end (r : string) (dims : list string) : list string :=
  match remove_one r dims with Some l => l ++ [r] | None => dims end.

(** patch.get_coord(name, require_evenly_sampled=True) and get_axis
    (proc/coords.py 102-154, utils/patch.py 900-937). *)
Definition even_dim (cm : cman) (d : string) : result (string * nat * crange) :=
  match assoc d (cm_coords cm) with
  | Some (M1 (CRange r)) => do ax <- axis_of cm d; Ok (d, ax, r)
  | _ => Err CoordError
  end.

Definition prod (l : list Z) : Z := fold_right Z.mul 1 l.

(** fourier.py 87-122: _get_dft_new_coords. *)
Definition dft_coords (cm : cman) (rs : list (string * nat * crange)) (real : option string)
  (original : option cman) : result cman :=
  do old <- disassociate cm (map (fun x => fst (fst x)) rs);
  do base <- as_kwargs old;
  do kw <- fold_left (fun acc x =>
      do kw <- acc;
      let '(d, _, r) := x in
      do c <- fft_coord (r_len r) (r_step r)
                (match real with Some y => String.eqb d y | None => false end);
      let kw := assoc_set (ft_name d) (KTuple [ft_name d] (VCoord (M1 c))) kw in
      match original with
      | None => Ok kw
      | Some o => match assoc d (cm_coords o) with
                  | Some m => Ok (assoc_set (unpadded_name d) (KTuple [] (VCoord m)) kw)
                  | None => Err CoordError end
      end) rs (Ok base);
  get_cm kw (Some (rename_at ft_name (cm_dims cm) (map (fun x => snd (fst x)) rs))) None.

(** fourier.py 136-146: a dimension whose transform is already there is skipped. *)
Definition untransformed (cm : cman) (dims : list string) : list string :=
  filter (fun d => negb (negb (mem d (cm_dims cm)) && mem ("ft_" ++ d)%string (cm_dims cm))) dims.

Section Transforms.
Context {A : Type}.
Variable zero : A.
Variable fast : Z -> Z.                              (* scipy.fft.next_fast_len *)
Variables fftn rfftn : list nat -> nd A -> nd A.      (* numpy.fft, over axes *)
Variables ifftn irfftn : option (list Z) -> list nat -> nd A -> nd A.   (* sizes, axes *)
Variables scale unscale : Z -> A -> A.    (* times / divided by a product of steps *)

Definition nd_map (f : A -> A) (a : nd A) : nd A := mkNd (nd_shape a) (map f (nd_flat a)).

(** fourier.py 281-320. Repeated dimensions are left out. *)
Definition dft (fp : fpatch A) (dim : option (list string)) (real : realarg) (pad : bool)
  : result (fpatch A) :=
  let p := f_patch fp in
  let cm := p_cm p in
  let given := match dim with Some l => l | None => cm_dims cm end in
  if negb (forallb (fun d => mem d (map fst (cm_coords cm))) given) then Err PatchCoordinateError
  else
    let dims := untransformed cm given in
    let real := match real with
                | RNo => None
                | RLast => match rev given with d :: _ => Some d | [] => None end
                | RName d => Some d end in
    let real := match real with Some d => if mem d dims then Some d else None | None => None end in
    if match dims with [] => true | _ => false end then Ok fp
    else if has_dup dims then Err Unmodelled
    else
      let dims := match real with Some d => to_end d dims | None => dims end in
      do q <- (if pad then pt_pad fast p zero true false (map (fun d => (d, PadFft)) dims) else Ok p);
      do rs <- map_result (even_dim (p_cm q)) dims;
      let axes := map (fun x => snd (fst x)) rs in
      do cm' <- dft_coords (p_cm q) rs real (if pad then Some cm else None);
      let func := match real with Some _ => rfftn | None => fftn end in
      let data := nd_map (scale (prod (map (fun x => r_step (snd x)) rs))) (func axes (p_data q)) in
      match fftshift data (match real with Some _ => removelast axes | None => axes end) with
      | None => Err IndexError
      | Some data => do out <- new_patch cm' data; Ok (mkF out pad)
      end.

(** fourier.py 350-381: _get_idft_coords_and_sizes: coordinates, sizes, padding. *)
Definition idft_coords (cm : cman) (padded : bool) (shape : list Z)
  (rs : list (string * nat * crange)) (real : bool)
  : result (cman * list Z * list (string * selarg)) :=
  let dims := map (fun x => fst (fst x)) rs in
  do old <- disassociate cm dims;
  do base <- as_kwargs old;
  do st <- fold_left (fun acc x =>
      do st <- acc;
      let '(kw, sizes, padding) := st in
      let '(d, ax, _) := x in
      let new := ift_name d in
      match assoc new kw with
      | Some (KTuple _ (VCoord m)) =>
          do n <- m_len m;
          let own := match nth_error shape ax with Some k => n =? k | None => false end in
          let isreal := real && match rev dims with l :: _ => String.eqb d l | [] => false end in
          let sizes := if own || isreal then sizes ++ [n] else sizes in
          let kw := assoc_set new (KTuple [new] (VCoord m)) kw in
          if negb padded then Ok (kw, sizes, padding)
          else
            match dict_pop (unpadded_name new) kw with
            | Some (KTuple _ (VCoord u), kw) =>
                do k <- m_len u;
                Ok (kw, sizes,
                    if k - n <? 0 then assoc_set new (SelPair (Some 0) (Some (k - n))) padding else padding)
            | _ => Err KeyError
            end
      | _ => Err Unmodelled                     (* NotImplementedError *)
      end) rs (Ok (base, [], []));
  let '(kw, sizes, padding) := st in
  do cm1 <- get_cm kw (Some (rename_at ift_name (cm_dims cm) (map (fun x => snd (fst x)) rs))) None;
  do cm2 <- drop_coords cm1 dims;
  Ok (fst cm2, sizes, padding).

(** fourier.py 325-347, 442-465. numpy refuses sizes and axes of different
    lengths; the transform is called real when a coordinate starts at zero. *)
Definition idft (fp : fpatch A) (dim : option (list string)) : result (fpatch A) :=
  let p := f_patch fp in
  let cm := p_cm p in
  let given := match dim with Some l => l | None => filter (str_prefix "ft_") (cm_dims cm) end in
  let dims := map (fun d => if mem d (cm_dims cm) then d else ft_name d) given in
  if negb (forallb (fun d => mem d (cm_dims cm)) dims) then Err PatchCoordinateError
  else if has_dup dims then Err Unmodelled
  else
    do rs0 <- map_result (even_dim cm) dims;
    let zeros := filter (fun x => r_min (snd x) =? 0) rs0 in
    do dims <- match zeros with
               | [] => Ok dims
               | [x] => Ok (to_end (fst (fst x)) dims)
               | _ => Err AssertionError
               end;
    let real := match zeros with [] => false | _ => true end in
    do rs <- map_result (even_dim cm) dims;
    let axes := map (fun x => snd (fst x)) rs in
    do cs <- idft_coords cm (f_padded fp) (nd_shape (p_data p)) rs real;
    let '(cm', sizes, padding) := cs in
    do steps <- map_result (fun d => match assoc (ift_name d) (cm_coords cm') with
                                     | Some (M1 (CRange r)) => Ok (r_step r)
                                     | _ => Err TypeError end) dims;
    match ifftshift (nd_map (unscale (prod steps)) (p_data p)) (if real then removelast axes else axes) with
    | None => Err IndexError
    | Some data =>
        let s := match sizes with [] => None | _ => Some sizes end in
        if match s with Some l => negb (zlen l =? zlen axes) | None => false end then Err ValueError
        else
          let data := (if real then irfftn else ifftn) s axes data in
          do out <- new_patch cm' data;
          match padding with
          | [] => Ok (mkF out false)
          | _ => do out' <- pt_select out false true padding; Ok (mkF out' false)
          end
    end.
End Transforms.

(** ** The lag coordinate of a correlation *)

(** coords.py 1249-1263 change_length of a range, see [change_length] of
    CoordModel.v; correlate.py 76-83: [ceil((n - 1) / 2) * step] on both sides. *)
Definition lag_coord (r : crange) : result coord :=
  let h := ceil_div (r_len r - 1) 2 * r_step r in
  do c0 <- mk_range (r_kind r) (- h) h (r_step r);
  do c <- change_length c0 (r_len r);
  if c_len c =? r_len r then Ok c else Err AssertionError.

(** correlate.py 71-87 with undo_weighting: [weight] divides by the step. *)
Definition correlate_shift {A} (unscale : Z -> A -> A) (p : patch A) (dim : string) (undo : bool)
  : result (patch A) :=
  let cm := p_cm p in
  do x <- even_dim cm dim;
  let '(_, ax, r) := x in
  match fftshift (p_data p) [ax] with
  | None => Err IndexError
  | Some data =>
      let data := if undo then nd_map (unscale (r_step r)) data else data in
      do c <- lag_coord r;
      do cm1 <- cm_update cm [(dim, KSimple (VCoord (M1 c)))];
      do cm2 <- cm_rename cm1 [(dim, ("lag_" ++ dim)%string)];
      new_patch cm2 data
  end.
