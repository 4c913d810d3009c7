(** Specification vocabulary for muting (C75, C76, C77). *)
From Verif Require Import Base CoordModel CoordSpec NdModel NdSpec ChunkModel CmModel CmSpec MuteModel.
From Coq Require Import Strings.String QArith Qabs.
Local Open Scope Z_scope.
Local Open Scope list_scope.

(** [q] is [p] with the samples in [region] (or outside it, if [invert]) multiplied by
    zero, all others by one. *)
Definition muted {A} (mul : A -> Q -> A) (p q : patch A) (invert : bool) (region : list Z -> Prop) : Prop :=
  p_cm q = p_cm p /\ nd_shape (p_data q) = nd_shape (p_data p) /\ wf_nd (p_data q) /\
  forall ix, inb (nd_shape (p_data p)) ix -> exists x, nd_get (p_data p) ix = Some x /\
    (region ix -> nd_get (p_data q) ix = Some (mul x (if invert then 1 else 0)%Q)) /\
    (~ region ix -> nd_get (p_data q) ix = Some (mul x (if invert then 0 else 1)%Q)).

(** A label as a number: times are nanoseconds and count in seconds. *)
Definition number (r : crange) (z : Z) : Q :=
  match r_kind r with KTime => z # 1000000000 | KInt => inject_Z z end.
Definition lowest (r : crange) : Z := Z.min (r_start r) (r_start r + (r_len r - 1) * r_step r).
Definition highest (r : crange) : Z := Z.max (r_start r) (r_start r + (r_len r - 1) * r_step r).
(** The range of a coordinate, one step past the last label. *)
Definition extent (r : crange) : Q := number r (highest r - lowest r + Z.abs (r_step r)).
(** The offset of sample [i] from the lowest label. *)
Definition sample_at (r : crange) (i : Z) : Q := (number r (r_start r + i * r_step r) - number r (lowest r))%Q.
(** The offset a number stands for; relative ones below zero count from the highest
    label. *)
Definition place (r : crange) (relative : bool) (v : Q) : Q :=
  (if relative then (if Qle_bool 0 v then v else number r (highest r) - number r (lowest r) + v)
   else v - number r (lowest r))%Q.

(** The line a pair of boundaries gives, and whether it is given by a single number, in
    which case it runs along the other dimension. *)
Inductive bound_line (r1 r2 : crange) (relative : bool) : mbound -> mbound -> line -> bool -> Prop :=
  | bl_pair u1 u2 w1 w2 : bound_line r1 r2 relative (BPair u1 u2) (BPair w1 w2)
      ((place r1 relative u1, place r2 relative w1), (place r1 relative u2, place r2 relative w2)) false
  | bl_first u : bound_line r1 r2 relative (BNum u) BNone ((place r1 relative u, 0), (place r1 relative u, 1))%Q true
  | bl_second w : bound_line r1 r2 relative BNone (BNum w) ((0, place r2 relative w), (1, place r2 relative w))%Q true.

Definition dir (l : line) : point := ((fst (snd l) - fst (fst l))%Q, (snd (snd l) - snd (fst l))%Q).
Definition back (d : point) : point := ((- fst d)%Q, (- snd d)%Q).
(** Products of two directions; the scalar product counts both in ranges. *)
Definition area (d e : point) : Q := (fst d * snd e - snd d * fst e)%Q.
Definition along (rx ry : Q) (d e : point) : Q := (fst d * fst e / (rx * rx) + snd d * snd e / (ry * ry))%Q.
Definition on_line (o : point) (l : line) : Prop :=
  (area (fst o - fst (fst l), snd o - snd (fst l)) (dir l) == 0)%Q.
(** Too short to be a line; so close to parallel that the angle is ignored. *)
Definition too_short (rx ry : Q) (d : point) : Prop := (along rx ry d d < 1 # 1000000000000000000)%Q.
Definition near_parallel (rx ry : Q) (d e : point) : Prop :=
  ((999999999 # 1000000000) * (999999999 # 1000000000) * (along rx ry d d * along rx ry e e) <
   along rx ry d e * along rx ry d e)%Q.
(** The directions the two lines are taken in: as given if they point the same way;
    otherwise a line given by a single number is turned round. *)
Definition turned (rx ry : Q) (d e : point) (i1 i2 : bool) (d' e' : point) : Prop :=
  ((0 <= along rx ry d e)%Q /\ d' = d /\ e' = e) \/
  ((along rx ry d e < 0)%Q /\ i1 = false /\ i2 = true /\ d' = d /\ e' = back e) \/
  ((along rx ry d e < 0)%Q /\ i1 = true /\ i2 = false /\ d' = back d /\ e' = e).
(** Strictly between two rays from [o]; strictly between two parallel lines. *)
Definition in_wedge (o d e pt : point) : Prop :=
  exists a b : Q, (0 < a /\ 0 < b /\ fst pt == fst o + a * fst d + b * fst e /\ snd pt == snd o + a * snd d + b * snd e)%Q.
Definition in_strip (o o' d pt : point) : Prop :=
  exists t s : Q, (0 < t /\ t < 1 /\ fst pt == fst o + t * (fst o' - fst o) + s * fst d /\
                   snd pt == snd o + t * (snd o' - snd o) + s * snd d)%Q.
(** The sample at a position lies in a region of the plane of two axes. *)
Definition sample_in (r1 r2 : crange) (a1 a2 : nat) (region : point -> Prop) (ix : list Z) : Prop :=
  exists i j, nth_error ix a1 = Some i /\ nth_error ix a2 = Some j /\ region (sample_at r1 i, sample_at r2 j).

(** ** Slopes *)
Definition slope_ok (s : slope) : Prop :=
  match s with SFin q => (q == 0 \/ 1 # 100000000 < q)%Q | SInf => True end.
(** [x / y] is above, below a slope. *)
Definition above (s : slope) (x y : Q) : Prop := match s with SFin q => (q * y < x)%Q | SInf => False end.
Definition below (s : slope) (x y : Q) : Prop := match s with SFin q => (x < q * y)%Q | SInf => (0 < y)%Q end.
Definition slope_between (s1 s2 : slope) (pt : point) : Prop :=
  (above s1 (fst pt) (snd pt) /\ below s2 (fst pt) (snd pt)) \/ (above s2 (fst pt) (snd pt) /\ below s1 (fst pt) (snd pt)).
(** The segment drawn for a slope over a span [w]. *)
Definition segment (w : Q) (s : slope) : point :=
  match s with
  | SInf => (1, 0)%Q
  | SFin q => if Qeq_bool q 0 then (0, 1)%Q else (w, w / q)%Q
  end.
