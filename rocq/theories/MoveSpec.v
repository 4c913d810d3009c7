(** Specification vocabulary for moving windows and filters (C81, C82, C83). *)
From Verif Require Import Base CoordModel NdModel NdSpec FrameModel CmModel MoveModel.
From Coq Require Import Strings.String QArith Qabs Sorting.Permutation Sorting.Sorted.
Local Open Scope Z_scope.
Local Open Scope list_scope.

(** ** Continuing a line beyond its ends *)

(** What stands at [j] is a copy of the element [k] of [n].
    reflect: d c b a | a b c d | d c b a; mirror: d c b | a b c d | c b a;
    nearest: a a a | a b c d | d d d; wrap: b c d | a b c d | a b c. *)
Definition copy_of (md : bmode) (n j k : Z) : Prop :=
  0 <= k < n /\
  match md with
  | MReflect => exists m, j = 2 * n * m + k \/ j = 2 * n * m - 1 - k
  | MMirror => exists m, j = Z.max 1 (2 * n - 2) * m + k \/ j = Z.max 1 (2 * n - 2) * m - k
  | MWrap => exists m, j = n * m + k
  | MNearest => j = k \/ (j < 0 /\ k = 0) \/ (n <= j /\ k = n - 1)
  | MConstant => j = k
  end.
(** ... with a constant outside for the mode of that name. *)
Definition continued (md : bmode) (cval : Q) (f : list Q) (j : Z) (v : Q) : Prop :=
  (exists k, copy_of md (zlen f) j k /\ znth f k = Some v) \/
  (md = MConstant /\ ~ 0 <= j < zlen f /\ v = cval).

(** The line of an array through [ix] along an axis. *)
Definition line {A} (a : nd A) (ax : nat) (ix : list Z) (f : list A) : Prop :=
  nth_error (nd_shape a) ax = Some (zlen f) /\
  forall k, 0 <= k < zlen f -> nd_get a (put ix ax k) = znth f k.

(** ** What is made of a window *)

(** [v] has rank [k] among the elements of [l]. *)
Definition ranked (l : list Q) (k : Z) (v : Q) : Prop :=
  exists s, Permutation l s /\ StronglySorted Qle s /\ znth s k = Some v.
Definition total_of (l : list Q) : Q := fold_right Qplus 0%Q l.
Definition mean_of (l : list Q) (v : Q) : Prop := (v * inject_Z (zlen l) == total_of l)%Q.
Definition reduces (op : mop) (l : list Q) (v : Q) : Prop :=
  match op with
  | OMedian => ranked l (zlen l / 2) v
  | OMean => mean_of l v
  | OSum => (v == total_of l)%Q
  | OMin => In v l /\ forall x, In x l -> (v <= x)%Q
  | OMax => In v l /\ forall x, In x l -> (x <= v)%Q
  | OStd => False
  end.
(** bottleneck: medians of an even number of elements are the mean of the middle two. *)
Definition reduces_bn (root : Q -> Q) (ddof : Z) (op : mop) (l : list Q) (v : Q) : Prop :=
  match op with
  | OMedian => exists x y, ranked l ((zlen l - 1) / 2) x /\ ranked l (zlen l / 2) y /\ (v == (x + y) / 2)%Q
  | OStd => exists m s, mean_of l m /\ v = root s /\
      (s * inject_Z (zlen l - ddof) == total_of (map (fun x => (x - m) * (x - m)) l))%Q
  | _ => reduces op l v
  end.
Definition op_name (o : mop) : string :=
  match o with OMedian => "median" | OMean => "mean" | OStd => "std" | OSum => "sum" | OMin => "min" | OMax => "max" end.

(** Every element of [b] is made of the [w] elements around it. *)
Definition centred_windows (op : mop) (w origin : Z) (md : bmode) (cval : Q) (ax : nat) (a : nd Q) (b : nd (option Q)) : Prop :=
  wf_nd b /\ nd_shape b = nd_shape a /\
  forall ix i f, inb (nd_shape a) ix -> nth_error ix ax = Some i -> line a ax ix f ->
    exists ws v, zlen ws = w /\
      (forall k, 0 <= k < w -> exists x, znth ws k = Some x /\ continued md cval f (i - w / 2 - origin + k) x) /\
      reduces op ws v /\ nd_get b ix = Some (Some v).
(** Every element of [b] is made of the elements inside the line among those around it;
    near the end the window is not moved to the middle. *)
Definition trailing_windows (root : Q -> Q) (op : mop) (w mc ddof : Z) (ax : nat) (a : nd Q) (b : nd (option Q)) : Prop :=
  wf_nd b /\ nd_shape b = nd_shape a /\
  forall ix i f, inb (nd_shape a) ix -> nth_error ix ax = Some i -> line a ax ix f ->
    let last := if i + w / 2 <? zlen f then i + w / 2 else i in
    let first := Z.max 0 (last - w + 1) in
    exists ws, zlen ws = last - first + 1 /\
      (forall k, 0 <= k < zlen ws -> znth ws k = znth f (first + k)) /\
      (zlen ws < mc -> nd_get b ix = Some None) /\
      (mc <= zlen ws -> exists v, reduces_bn root ddof op ws v /\ nd_get b ix = Some (Some v)).

(** ** Boxes *)

(** Element [jx] of an array continued beyond its ends. *)
Definition continued_nd (md : bmode) (cval : Q) (a : nd Q) (jx : list Z) (v : Q) : Prop :=
  (exists kx, List.length kx = List.length (nd_shape a) /\
     (forall d n j, nth_error (nd_shape a) d = Some n -> nth_error jx d = Some j ->
        exists k, nth_error kx d = Some k /\ copy_of md n j k) /\
     nd_get a kx = Some v) \/
  (md = MConstant /\ ~ inb (nd_shape a) jx /\ v = cval).
(** [b] holds the median of the box of the given lengths around each element of [a]: the box
    is an array [w] cut out of [a]. *)
Definition box_medians (md : bmode) (cval : Q) (sizes : list Z) (a b : nd Q) : Prop :=
  wf_nd b /\ nd_shape b = nd_shape a /\
  forall ix, inb (nd_shape a) ix -> exists w v, wf_nd w /\ nd_shape w = sizes /\
    (forall ox, inb sizes ox -> exists x, nd_get w ox = Some x /\
       continued_nd md cval a (map (fun e => fst (fst e) - snd (fst e) / 2 + snd e) (combine (combine ix sizes) ox)) x) /\
    ranked (nd_flat w) (size sizes / 2) v /\ nd_get b ix = Some v.

(** ** Outliers *)

(** Medians along one dimension after another, those of more than one sample. *)
Definition line_medians (bn : bool) (w : Z) (ax : nat) (a b : nd Q) : Prop :=
  exists c, (if bn then trailing_windows (fun q => q) OMedian w 1 0 ax a c
             else centred_windows OMedian w 0 MReflect 0 ax a c) /\
  wf_nd b /\ nd_shape b = nd_shape a /\ forall ix v, nd_get c ix = Some (Some v) -> nd_get b ix = Some v.
Fixpoint medians_in_turn (bn : bool) (ax : nat) (sizes : list Z) (a b : nd Q) : Prop :=
  match sizes with
  | [] => b = a
  | w :: t => exists c, (if 1 <? w then line_medians bn w ax a c else c = a) /\ medians_in_turn bn (S ax) t c b
  end.
(** [b] is [a] with every element that is further from its median [m] than [h] times the
    median [s] of such distances replaced by its median. *)
Definition despiked (medians : nd Q -> nd Q -> Prop) (least h : Q) (a b : nd Q) : Prop :=
  exists m dev s, medians a m /\ medians dev s /\
    wf_nd dev /\ nd_shape dev = nd_shape a /\
    wf_nd b /\ nd_shape b = nd_shape a /\
    forall ix, inb (nd_shape a) ix -> exists x y z,
      nd_get a ix = Some x /\ nd_get m ix = Some y /\ nd_get dev ix = Some (Qabs (x - y)) /\ nd_get s ix = Some z /\
      ((h * (if Qeq_bool z 0 then least else z) < Qabs (x - y))%Q -> nd_get b ix = Some y) /\
      ((Qabs (x - y) <= h * (if Qeq_bool z 0 then least else z))%Q -> nd_get b ix = Some x).

(** The length of the window asked for along each dimension: that of the keyword, or one. *)
Definition asked_sizes (p : patch Q) (samples odd : bool) (kw : list (string * Z)) (sizes : list Z) : Prop :=
  List.length sizes = List.length (cm_dims (p_cm p)) /\
  forall ax d w, nth_error (cm_dims (p_cm p)) ax = Some d -> nth_error sizes ax = Some w ->
    match assoc d kw with
    | None => w = 1
    | Some v =>
        if samples then w = v
        else exists r n, assoc d (cm_coords (p_cm p)) = Some (M1 (CRange r)) /\
               (n - 1) * r_step r < v <= n * r_step r /\ w = (if odd && Z.even n then n + 1 else n)
    end.
(** Keywords that name dimensions with even steps and windows of at least [least] samples, an
    odd number of them if that is wanted. *)
Definition windows_given (p : patch Q) (samples odd : bool) (least : Z) (kw : list (string * Z)) : Prop :=
  NoDup (map fst kw) /\
  forall d v, In (d, v) kw -> In d (cm_dims (p_cm p)) /\
    exists r, assoc d (cm_coords (p_cm p)) = Some (M1 (CRange r)) /\
      if samples then least <= v /\ (odd = true -> v mod 2 = 1)
      else 0 < r_step r /\ (least - 1) * r_step r < v.

(** ** Weights *)

(** Every element of [b] is the sum of those of the line around it with weights. *)
Definition weighted (md : bmode) (cval : Q) (ws : list Q) (ax : nat) (a b : nd Q) : Prop :=
  wf_nd b /\ nd_shape b = nd_shape a /\
  forall ix i f, inb (nd_shape a) ix -> nth_error ix ax = Some i -> line a ax ix f ->
    exists xs, zlen xs = zlen ws /\
      (forall k, 0 <= k < zlen ws -> exists x, znth xs k = Some x /\ continued md cval f (i - zlen ws / 2 + k) x) /\
      nd_get b ix = Some (total_of (map (fun e => fst e * snd e)%Q (combine ws xs))).
Fixpoint weighted_in_turn (md : bmode) (cval : Q) (l : list (list Q * nat)) (a b : nd Q) : Prop :=
  match l with
  | [] => b = a
  | e :: t => exists c, weighted md cval (fst e) (snd e) a c /\ weighted_in_turn md cval t c b
  end.
(** Every line of [b] is what [f] makes of that of [a]. *)
Definition lines_by (f : list Q -> list Q) (ax : nat) (a b : nd Q) : Prop :=
  wf_nd b /\ nd_shape b = nd_shape a /\
  forall ix i g, inb (nd_shape a) ix -> nth_error ix ax = Some i -> line a ax ix g -> nd_get b ix = znth (f g) i.
(** The length asked for along one dimension. *)
Definition asked_size (p : patch Q) (samples : bool) (d : string) (v n : Z) : Prop :=
  if samples then n = v
  else exists r, assoc d (cm_coords (p_cm p)) = Some (M1 (CRange r)) /\ (n - 1) * r_step r < v <= n * r_step r.

(** [w] is the integer [z] with 24 binary digits: the nearest multiple of a power of two that
    leaves no more digits, an even multiple if two are as near. *)
Definition float32_of (z w : Z) : Prop :=
  exists e m, 0 <= e /\ w = m * 2 ^ e /\ Z.abs m <= 2 ^ 24 /\ (e = 0 \/ 2 ^ 23 <= Z.abs m) /\
    2 * Z.abs (z - w) <= 2 ^ e /\ (2 * Z.abs (z - w) = 2 ^ e -> e = 0 \/ Z.even m = true).
