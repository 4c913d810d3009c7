(** Specification vocabulary for detrending, kurtosis and slant stacks (C84, C85, C86). *)
From Verif Require Import Base CoordModel NdModel NdSpec FrameModel CmModel MoveSpec.
From Coq Require Import Strings.String QArith.
Local Open Scope Z_scope.
Local Open Scope list_scope.

(** ** Trends *)

(** [g] is [f] less a straight line, or less a constant. *)
Definition less_line (f g : list Q) : Prop :=
  zlen g = zlen f /\ exists a c : Q, forall k x y, znth f k = Some x -> znth g k = Some y -> (y == x - (a + c * inject_Z k))%Q.
Definition less_constant (f g : list Q) : Prop :=
  zlen g = zlen f /\ exists a : Q, forall k x y, znth f k = Some x -> znth g k = Some y -> (y == x - a)%Q.
Definition squares (l : list Q) : Q := total_of (map (fun x => x * x)%Q l).
(** ... with the least squares there can be. *)
Definition best (off : list Q -> list Q -> Prop) (f g : list Q) : Prop :=
  off f g /\ forall h, off f h -> (squares g <= squares h)%Q.
(** The elements of [f] and [g] stand in the given relation, line by line. *)
Definition by_line {A B} (R : list A -> list B -> Prop) (ax : nat) (a : nd A) (b : nd B) : Prop :=
  wf_nd b /\ nd_shape b = nd_shape a /\
  forall ix f, inb (nd_shape a) ix -> line a ax ix f -> exists g, line b ax ix g /\ R f g.
Definition same_values (l m : list Q) : Prop := Forall2 Qeq l m.
Definition trend_names : list (string * (list Q -> list Q -> Prop)) :=
  [("linear", less_line); ("l", less_line); ("constant", less_constant); ("c", less_constant)]%string.

(** ** Kurtosis *)

(** The mean of the powers of the distances to the mean. *)
Definition central (k : nat) (l : list Q) (v : Q) : Prop :=
  exists m, mean_of l m /\ mean_of (map (fun x => Qpower (x - m) (Z.of_nat k)) l) v.
Definition all_equal (l : list Q) : Prop := forall x y, In x l -> In y l -> (x == y)%Q.
(** Pearson's kurtosis; none for equal elements. *)
Definition kurtosis_of (l : list Q) (v : option Q) : Prop :=
  (all_equal l /\ v = None) \/
  (~ all_equal l /\ exists s q k, central 2 l s /\ central 4 l q /\ (0 < s)%Q /\ v = Some k /\ (k * (s * s) == q)%Q).
(** [ws] is what there is of [f] from [first] up to [stop]. *)
Definition part_of (f : list Q) (first stop : Z) (ws : list Q) : Prop :=
  zlen ws = Z.min stop (zlen f) - Z.max first 0 /\
  forall k, 0 <= k < zlen ws -> znth ws k = znth f (Z.max first 0 + k).
Definition windowed_kurtosis (w : Z) (f : list Q) (g : list (option Q)) : Prop :=
  zlen g = zlen f /\
  forall i, 0 <= i < zlen f -> exists ws v,
    part_of f (i - w / 2) (i - w / 2 + w) ws /\ znth g i = Some v /\ kurtosis_of ws v.

(** The mean of what came so far, the weights fading by [c] with every step. *)
Definition fading (c : Q) (l : list Q) : Q :=
  total_of (map (fun e => (1 - c) * Qpower c (zlen l - 1 - fst e) * snd e)%Q (combine (zrange (zlen l)) l)).
Definition upto (j : Z) (l : list Q) : list Q := firstn (Z.to_nat (j + 1)) l.
(** [ms], [vs], [ds] and [ks]: the fading mean, the fading mean of the squared distances to
    it, the fourth powers of those over the square of the larger of that and the variance of
    the line, and the fading mean of these. *)
Definition recursive_kurtosis (w : Z) (f : list Q) (g : list (option Q)) : Prop :=
  let c := (1 - 1 / inject_Z w)%Q in
  zlen g = zlen f /\
  ((forall x, In x f -> (x == 0)%Q) -> forall v, In v g -> v = None) /\
  (~ (forall x, In x f -> (x == 0)%Q) ->
   exists var ms vs es ks,
     central 2 f var /\ zlen ms = zlen f /\ zlen vs = zlen f /\ zlen es = zlen f /\ zlen ks = zlen f /\ g = map Some ks /\
     forall j x m v e k, znth f j = Some x -> znth ms j = Some m -> znth vs j = Some v -> znth es j = Some e -> znth ks j = Some k ->
       (m == fading c (upto j f))%Q /\
       (v == fading c (upto j (map (fun t => (fst t - snd t) * (fst t - snd t))%Q (combine f ms))))%Q /\
       (exists top, (top == v \/ top == var)%Q /\ (v <= top)%Q /\ (var <= top)%Q /\ (0 < top)%Q /\ (e * (top * top) == Qpower (x - m) 4)%Q) /\
       (k == fading c (upto j es))%Q).

(** ** Slant stacks *)

(** What is read off a trace between its samples, along a straight line; nothing past the
    last of them. *)
Definition reads_at (f : list Q) (s v : Q) : Prop :=
  exists i, (inject_Z i <= s)%Q /\ (s < inject_Z i + 1)%Q /\
    (i + 1 < zlen f -> exists x y, znth f i = Some x /\ znth f (i + 1) = Some y /\ (v == x + (s - inject_Z i) * (y - x))%Q) /\
    (zlen f <= i + 1 -> (v == 0)%Q).
(** The sum over the traces of what is read at [tau] samples and what the wave takes at a
    slowness of [p] from the first place (or to the last, for a negative one). *)
Definition slant_stack (rows : list (list Q)) (offset : Z -> Q) (dt p : Q) (tau : Z) (v : Q) : Prop :=
  exists vs, zlen vs = zlen rows /\ (v == total_of vs)%Q /\
    forall k f, znth rows k = Some f -> exists x, znth vs k = Some x /\ reads_at f (inject_Z tau + p * offset k / dt)%Q x.
(** The traces of an array of two axes. *)
Definition traces (a : nd Q) (rows : list (list Q)) : Prop :=
  exists nt, nd_shape a = [zlen rows; nt] /\
    forall i f, znth rows i = Some f -> zlen f = nt /\ forall t, 0 <= t < nt -> nd_get a [i; t] = znth f t.

(** The number of samples asked for, whichever way the coordinate runs. *)
Definition samples_asked (samples : bool) (r : crange) (v n : Z) : Prop :=
  if samples then n = v else 0 <= v /\ (n - 1) * Z.abs (r_step r) < v <= n * Z.abs (r_step r).

(** The rows of a slant stack for the slownesses [ps]: the negative ones come first, in
    reverse; [near] and [far] are the distances a wave has run at a trace if it comes from
    the first place or from the last. *)
Definition slant_rows (rows : list (list Q)) (near far : Z -> Q) (dt : Q) (nt : Z) (ps : list Q) (out : list (list Q)) : Prop :=
  zlen out = 2 * zlen ps /\
  forall k p, znth ps k = Some p -> exists pos neg,
    znth out (zlen ps + k) = Some pos /\ znth out (zlen ps - 1 - k) = Some neg /\ zlen pos = nt /\ zlen neg = nt /\
    forall tau, 0 <= tau < nt -> exists x y, znth pos tau = Some x /\ znth neg tau = Some y /\
      slant_stack rows near dt p tau x /\ slant_stack rows far dt p tau y.
(** The straight line through the samples of a trace around [s0], read at [s]; nothing past
    the last sample. *)
Definition line_read (f : list Q) (s0 s v : Q) : Prop :=
  exists i, (inject_Z i <= s0)%Q /\ (s0 < inject_Z i + 1)%Q /\
    (i + 1 < zlen f -> exists x y, znth f i = Some x /\ znth f (i + 1) = Some y /\ (v == x + (s - inject_Z i) * (y - x))%Q) /\
    (zlen f <= i + 1 -> (v == 0)%Q).
(** ... where for the negative ones the samples are those around the time of the trace as
    far from the other end. *)
Definition mixed_stack (rows : list (list Q)) (near far : Z -> Q) (dt p : Q) (tau : Z) (v : Q) : Prop :=
  exists vs, zlen vs = zlen rows /\ (v == total_of vs)%Q /\
    forall k f, znth rows k = Some f -> exists x, znth vs k = Some x /\
      line_read f (inject_Z tau + p * near (zlen rows - 1 - k)%Z / dt)%Q (inject_Z tau + p * far k / dt)%Q x.
Definition slant_rows_mixed (rows : list (list Q)) (near far : Z -> Q) (dt : Q) (nt : Z) (ps : list Q) (out : list (list Q)) : Prop :=
  zlen out = 2 * zlen ps /\
  forall k p, znth ps k = Some p -> exists pos neg,
    znth out (zlen ps + k) = Some pos /\ znth out (zlen ps - 1 - k) = Some neg /\ zlen pos = nt /\ zlen neg = nt /\
    forall tau, 0 <= tau < nt -> exists x y, znth pos tau = Some x /\ znth neg tau = Some y /\
      slant_stack rows near dt p tau x /\ mixed_stack rows near far dt p tau y.
Definition rising (l : list Q) : Prop := forall i j x y, i < j -> znth l i = Some x -> znth l j = Some y -> (x < y)%Q.
Definition all_positive (l : list Q) : Prop := forall x, In x l -> (0 < x)%Q.
