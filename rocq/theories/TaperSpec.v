(** Specification vocabulary for tapering (C65, C66). *)
From Verif Require Import Base CoordModel CoordSpec NdModel NdSpec ChunkModel CmModel CmSpec TaperModel.
From Coq Require Import Strings.String QArith Qabs.
Local Open Scope Z_scope.
Local Open Scope list_scope.

(** Labels of an evenly sampled or array coordinate, lowest first. *)
Definition upward (c : coord) : Prop :=
  match c with
  | CRange r => 0 < r_step r < 20000000000
  | CMono _ v => ascending v
  | _ => False
  end.
(** How many labels satisfy a condition. *)
Definition count (f : Z -> bool) (l : list Z) : Z := zlen (filter f l).

(** [q] is [p] with the samples at position [i] along axis [ax] changed by [f i]. *)
Definition changed_along {A} (p q : patch A) (ax : nat) (f : Z -> A -> A) : Prop :=
  p_cm q = p_cm p /\ nd_shape (p_data q) = nd_shape (p_data p) /\ wf_nd (p_data q) /\
  forall ix, inb (nd_shape (p_data p)) ix ->
    exists i x, nth_error ix ax = Some i /\ nd_get (p_data p) ix = Some x /\ nd_get (p_data q) ix = Some (f i x).

(** The first half of a window of length [2 k] at position [i], the second half at
    position [i] counted from the first of the last [k] samples. *)
Definition rising (w : Z -> list Q) (k i : Z) : option Q := znth (w (2 * k)) i.
Definition falling (w : Z -> list Q) (k i : Z) : option Q := znth (w (2 * k)) (k + i).
(** What tapering [k1] samples at the start and [k2] at the end of [n] does. *)
Definition tapered {A} (mul : A -> Q -> A) (w : Z -> list Q) (n k1 k2 i : Z) (x : A) : A :=
  if i <? k1 then match rising w k1 i with Some y => mul x y | None => x end
  else if n - k2 <=? i then match falling w k2 (i - (n - k2)) with Some y => mul x y | None => x end
  else x.

(** The factor of a range that rises over [i1, i2), is one over [i2, i3) and falls
    over [i3, i4); zero elsewhere. *)
Definition range_factor (w : Z -> list Q) (i1 i2 i3 i4 i : Z) : Q :=
  if (i2 <=? i) && (i <? i3) then 1
  else if (i1 <=? i) && (i <? i2) then match znth (w (2 * (i2 - i1) + 1)) (i - i1) with Some y => y | None => 0 end
  else if (i3 <=? i) && (i <? i4) then match znth (w (2 * (i4 - i3) + 1)) (i4 - 1 - i) with Some y => y | None => 0 end
  else 0%Q.
(** Window functions give as many values as asked for, between zero and one. *)
Definition window (w : Z -> list Q) : Prop :=
  forall n, 0 <= n -> zlen (w n) = n /\ forall y, In y (w n) -> (0 <= y <= 1)%Q.

(** ** Amounts *)

(** An amount of a coordinate of range [dur]: itself, or a fraction of the range; a
    fraction of a time span is rounded down. *)
Inductive amounts (c : coord) (dur : Z) : tamount -> Z -> Prop :=
  | am_abs z : amounts c dur (TAbs z) z
  | am_time n d a : c_kind c = KTime -> 0 <= n -> 0 < d -> d * a <= n * dur < d * (a + 1) -> amounts c dur (TFrac n d) a
  | am_int n d a : c_kind c = KInt -> 0 < d -> n * dur = d * a -> amounts c dur (TFrac n d) a.
(** From where on an amount from the first label is past the dimension: one step past
    the last label, or one unit if the labels are an array. *)
Definition reach (c : coord) (mn mx : Z) : Z := mx - mn + match c with CRange r => r_step r | _ => 1 end.
(** The samples a taper at the start or end changes: those whose label is at most the
    amount from the first or last. *)
Definition start_samples (c : coord) (mn mx : Z) (o : option tamount) (k : Z) : Prop :=
  match o with
  | None => k = 0
  | Some v => exists a, amounts c (mx - mn) v a /\ 0 <= a < reach c mn mx /\ k = count (fun x => x <=? mn + a) (c_ints c)
  end.
Definition end_samples (c : coord) (mn mx : Z) (o : option tamount) (k : Z) : Prop :=
  match o with
  | None => k = 0
  | Some v => exists b, amounts c (mx - mn) v b /\ 0 < b /\ k = count (fun x => mx - b <=? x) (c_ints c)
  end.

(** ** Ranges *)

(** The sample a value asks for. *)
Definition asked1 (r : crange) (relative samples : bool) (v i : Z) : Prop :=
  if samples then - r_len r <= v < r_len r /\ i = (if v <? 0 then v + r_len r else v)
  else let x := if relative then (if 0 <=? v then r_min r + v else r_max r + v) else v in
       r_min r <= x <= r_max r /\ first_at_or_after (r_values r) x i.
Definition asked_or (r : crange) (relative samples : bool) (d : Z) (o : option Z) (i : Z) : Prop :=
  match o with None => i = d | Some v => asked1 r relative samples v i end.
Inductive asked (r : crange) (relative samples : bool) : list (option Z) -> Z * Z * Z * Z -> Prop :=
  | asked_two a b i2 i3 : asked1 r relative samples a i2 -> asked1 r relative samples b i3 ->
      asked r relative samples [Some a; Some b] (0, i2, i3, r_len r)
  | asked_four o1 o2 o3 o4 i1 i2 i3 i4 :
      asked_or r relative samples 0 o1 i1 -> asked_or r relative samples 0 o2 i2 ->
      asked_or r relative samples (r_len r - 1) o3 i3 -> asked_or r relative samples (r_len r - 1) o4 i4 ->
      asked r relative samples [o1; o2; o3; o4] (i1, i2, i3, i4).
Definition in_order (n : Z) (s : Z * Z * Z * Z) : Prop :=
  match s with (i1, i2, i3, i4) => 0 <= i1 /\ i1 <= i2 /\ i2 <= i3 /\ i3 <= i4 /\ i4 <= n end.
(** The factors of several ranges are added. *)
Definition total (w : Z -> list Q) (sets : list (Z * Z * Z * Z)) (i : Z) : Q :=
  fold_right (fun s acc => match s with (i1, i2, i3, i4) => range_factor w i1 i2 i3 i4 i + acc end)%Q 0%Q sets.
(** The argument for one or several sequences. *)
Definition sequences (arg : trarg) (ls : list (list (option Z))) : Prop :=
  arg = TMany ls /\ ls <> [] \/ exists l, arg = TOne l /\ ls = [l].
