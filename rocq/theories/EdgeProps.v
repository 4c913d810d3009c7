(** Properties C87, C88 and C89: cell edges, the arguments of filters, slope masks.
    Model: EdgeModel.v. Specification vocabulary: EdgeSpec.v. *)
From Verif Require Import Base BaseFacts CoordModel NdModel NdSpec FrameModel CmModel CmProps UnitsModel UnitsSpec UnitsProps MoveSpec MoveProofs
  MuteModel EdgeModel EdgeSpec EdgeProofs EdgeProofs2 EdgeProofs3 EdgeProofs4.
From Coq Require Import Strings.String QArith Qabs Lia Lqa Sorting.Permutation Sorting.Sorted.
Local Open Scope Z_scope.
Local Open Scope list_scope.
Local Open Scope string_scope.

(** * C87: get_gap_edges *)

(** Labels that rise or fall get one cell each. A gap is an interval that is longer than
    [k] times the median interval [m]. Cells without a gap between them meet halfway;
    at a gap, cells reach half of [m] from their labels. The first and the last
    cell are symmetric. *)
Theorem C87_edges : forall datetime l factor sg, 2 <= zlen l -> heads sg l ->
  exists m es gs cs, middle_interval l m /\ gap_edges datetime l factor = Ok (es, gs) /\ cells es gs cs /\ zlen cs = zlen l /\ zlen gs = zlen l - 1 /\
    (forall i u v, znth l i = Some u -> znth l (i + 1) = Some v ->
       exists g a b, znth gs i = Some g /\ option_map snd (znth cs i) = Some a /\ option_map fst (znth cs (i + 1)) = Some b /\
       (g = true <-> exists k, factor = Some k /\ (k * m < Qabs (v - u))%Q) /\
       if g then (a == u + sg * m / 2)%Q /\ (b == v - sg * m / 2)%Q else (a == (u + v) / 2)%Q /\ (b == (u + v) / 2)%Q) /\
    (forall u a b, znth l 0 = Some u -> znth cs 0 = Some (a, b) -> (u - a == b - u)%Q) /\
    (forall u a b, znth l (zlen l - 1) = Some u -> znth cs (zlen l - 1) = Some (a, b) -> (u - a == b - u)%Q).
Proof. exact edges_all. Qed.
Print Assumptions C87_edges.
(** So every label lies inside its cell, whatever the factor; with a factor of at least
    one cells do not overlap, and there is room between those with a gap. *)
Theorem C87_inside : forall datetime l factor sg es gs, 2 <= zlen l -> heads sg l -> gap_edges datetime l factor = Ok (es, gs) ->
  exists cs, cells es gs cs /\ zlen cs = zlen l /\
    (forall i u a b, znth l i = Some u -> znth cs i = Some (a, b) -> (0 < sg * (u - a) /\ 0 < sg * (b - u))%Q) /\
    (match factor with Some k => (1 <= k)%Q | None => True end ->
     forall i a b c d g, znth cs i = Some (a, b) -> znth cs (i + 1) = Some (c, d) -> znth gs i = Some g ->
       if g then (0 < sg * (c - b))%Q else (c == b)%Q).
Proof. exact edges_inside. Qed.
Print Assumptions C87_inside.
(** There is one edge more than cells, and another for every gap. *)
Theorem C87_number : forall es gs cs, cells es gs cs -> zlen es = zlen cs + 1 + gaps gs.
Proof. exact cells_count. Qed.
Print Assumptions C87_number.
(** A single label gets a cell of width one, or of a day; no labels are an error. *)
Theorem C87_single : forall datetime x factor,
  (exists a b, gap_edges datetime [x] factor = Ok ([a; b], []) /\ (x - a == b - x)%Q /\ (b - a == if datetime then 24 * 60 * 60 else 1)%Q) /\
  gap_edges datetime [] factor = Err IndexError.
Proof.
  intros datetime x factor. split; [|reflexivity]. eexists. eexists. split; [reflexivity|]. destruct datetime; split; field.
Qed.
Print Assumptions C87_single.
(** What waterfall asks first: the labels are all finite, and they rise or fall. *)
Theorem C87_monotone : forall labels, monotonic_and_finite labels = true <-> exists l sg, labels = map Some l /\ heads sg l.
Proof. exact monotone_iff. Qed.
Print Assumptions C87_monotone.

Definition edges_of (r : result (list Q * list bool)) : list Q := match r with Ok e => map Qred (fst e) | Err _ => [] end.
Definition gaps_of (r : result (list Q * list bool)) : list bool := match r with Ok e => snd e | Err _ => [] end.
Example C87_applies :
  heads 1 [0; 1; 2; 6]%Q /\ heads (-1) [6; 2; 1; 0]%Q /\
  edges_of (gap_edges false [0; 1; 2; 6]%Q (Some 2%Q)) = [-(1) # 2; 1 # 2; 3 # 2; 5 # 2; 11 # 2; 13 # 2]%Q /\
  edges_of (gap_edges false [6; 2; 1; 0]%Q (Some 2%Q)) = [13 # 2; 11 # 2; 5 # 2; 3 # 2; 1 # 2; -(1) # 2]%Q /\
  edges_of (gap_edges false [0; 1; 2; 6]%Q None) = [-(1) # 2; 1 # 2; 3 # 2; 4; 8]%Q /\
  gaps_of (gap_edges true [0; 1; 2; 6]%Q (Some 2%Q)) = [false; false; true] /\ gaps [false; false; true] = 1 /\
  monotonic_and_finite [Some 0; Some 1; Some 1]%Q = false /\ monotonic_and_finite [Some 0; None]%Q = false /\ monotonic_and_finite [Some 5; Some 1; Some 0]%Q = true.
Proof.
  assert (H : forall i x y, znth [0; 1; 2; 6]%Q i = Some x -> znth [0; 1; 2; 6]%Q (i + 1) = Some y -> (x < y)%Q).
  { intros i x y X Y. assert (B : 0 <= i < 3) by (apply znth_lt in Y; apply znth_lt in X; change (zlen [0; 1; 2; 6]%Q) with 4 in *; lia).
    assert (K : i = 0 \/ i = 1 \/ i = 2) by lia. destruct K as [->|[->| ->]]; cbn in X, Y; apply some_inj in X, Y; subst; reflexivity. }
  assert (H' : forall i x y, znth [6; 2; 1; 0]%Q i = Some x -> znth [6; 2; 1; 0]%Q (i + 1) = Some y -> (y < x)%Q).
  { intros i x y X Y. assert (B : 0 <= i < 3) by (apply znth_lt in Y; apply znth_lt in X; change (zlen [6; 2; 1; 0]%Q) with 4 in *; lia).
    assert (K : i = 0 \/ i = 1 \/ i = 2) by lia. destruct K as [->|[->| ->]]; cbn in X, Y; apply some_inj in X, Y; subst; reflexivity. }
  split; [split; [left; reflexivity|intros i x y X Y; specialize (H i x y X Y); lra]|].
  split; [split; [right; reflexivity|intros i x y X Y; specialize (H' i x y X Y); lra]|].
  repeat split; reflexivity.
Qed.
(** With a factor below one cells overlap although the labels rise. *)
Theorem C87_overlap_refuted : exists l es gs cs i a b c d, heads 1 l /\ gap_edges false l (Some (1 # 2)) = Ok (es, gs) /\ cells es gs cs /\
  znth cs i = Some (a, b) /\ znth cs (i + 1) = Some (c, d) /\ (c < b)%Q.
Proof.
  exists [0; 1; 8 # 5; 13 # 5; 18 # 5]%Q. eexists. eexists. eexists. exists 1. eexists. eexists. eexists. eexists.
  split; [|split; [vm_compute; reflexivity|split; [apply cells_apart, cells_apart, cells_apart, cells_apart, cells_one|split; [reflexivity|split; [reflexivity|reflexivity]]]]].
  split; [left; reflexivity|]. intros i x y X Y. set (l := [0; 1; 8 # 5; 13 # 5; 18 # 5]%Q) in *.
  assert (B : 0 <= i < 4) by (apply znth_lt in Y; apply znth_lt in X; change (zlen l) with 5 in *; lia).
  assert (K : i = 0 \/ i = 1 \/ i = 2 \/ i = 3) by lia. destruct K as [->|[->|[->| ->]]]; cbn in X, Y; apply some_inj in X, Y; subst; reflexivity.
Qed.
Print Assumptions C87_overlap_refuted.

(** * C88: the arguments of pass_filter and notch_filter *)

(** With samples [st] apart, the frequencies go up to 1 / (2 st). Limits between zero and
    that give a band; scipy gets them as parts of it. *)
Theorem C88_band : forall A units d (p : patch A) ax m st lo hi, dimension p d ax m -> step_is m st -> (0 < st)%Q ->
  (0 < lo)%Q -> (lo < hi)%Q -> (2 * hi * st < 1)%Q ->
  exists l h, pt_pass_filter units [(d, [BArg (FNum lo); BArg (FNum hi)])] p = Ok (ax, Band l h) /\ (l == 2 * lo * st)%Q /\ (h == 2 * hi * st)%Q.
Proof. exact @pass_band. Qed.
Print Assumptions C88_band.
(** A lower limit alone lets the higher pass, an upper limit the lower. *)
Theorem C88_one_sided : forall A units d (p : patch A) ax m st x o, dimension p d ax m -> step_is m st -> (0 < st)%Q ->
  (0 < x)%Q -> (2 * x * st < 1)%Q -> o = BDots \/ o = BArg FNone ->
  (exists l, pt_pass_filter units [(d, [BArg (FNum x); o])] p = Ok (ax, High l) /\ (l == 2 * x * st)%Q) /\
  (exists l, pt_pass_filter units [(d, [o; BArg (FNum x)])] p = Ok (ax, Low l) /\ (l == 2 * x * st)%Q).
Proof. exact @pass_high. Qed.
Print Assumptions C88_one_sided.
(** Quantities are the frequencies get_filter_units makes of them (C64). *)
Theorem C88_units : forall A units d (p : patch A) ax m a b x y, dimension p d ax m -> filter_units a b units = Ok (x, y) -> (x <> None \/ y <> None) ->
  pt_pass_filter units [(d, [BArg a; BArg b])] p =
  pt_pass_filter units [(d, [BArg (match x with Some v => FNum v | None => FNone end); BArg (match y with Some v => FNum v | None => FNone end)])] p.
Proof. exact @pass_units. Qed.
Print Assumptions C88_units.
(** Refused are negative limits, limits beyond the highest frequency and limits in the
    wrong order, *)
Theorem C88_refused : forall A units d (p : patch A) ax m st a b, dimension p d ax m -> step_is m st -> (0 < st)%Q -> plain a -> plain b ->
  (exists x, (number a = Some x \/ number b = Some x) /\ (x < 0 \/ 1 < 2 * x * st)%Q) \/
  (exists x y, number a = Some x /\ number b = Some y /\ (y <= x)%Q) ->
  pt_pass_filter units [(d, [BArg a; BArg b])] p = Err FilterValueError.
Proof. exact @pass_refused. Qed.
Print Assumptions C88_refused.
(** and other than one dimension, other than two limits, no limit, unknown dimensions and
    coordinates without a step. *)
Theorem C88_arguments : forall A units (p : patch A),
  (forall kw, zlen kw <> 1 -> pt_pass_filter units kw p = Err FilterValueError) /\
  (forall d l, zlen l <> 2 -> pt_pass_filter units [(d, l)] p = Err FilterValueError) /\
  (forall d, pt_pass_filter units [(d, [BArg FNone; BArg FNone])] p = Err FilterValueError) /\
  (forall d a b, ~ (a = BArg FNone /\ b = BArg FNone) -> ~ In d (cm_dims (p_cm p)) -> pt_pass_filter units [(d, [a; b])] p = Err CoordError) /\
  (forall d ax m a b, dimension p d ax m -> ~ (a = FNone /\ b = FNone) -> plain a -> plain b ->
     (forall r, m <> M1 (CRange r)) -> (forall n, m <> M1 (CPart n)) -> pt_pass_filter units [(d, [BArg a; BArg b])] p = Err CoordDataError).
Proof. exact @pass_arguments. Qed.
Print Assumptions C88_arguments.
(** The limits the message of the refusal calls possible, zero and the highest frequency,
    are not: scipy refuses them. *)
Theorem C88_ends_refuted : forall A units d (p : patch A) ax m st x, dimension p d ax m -> step_is m st -> (0 < st)%Q -> (0 < x)%Q -> (2 * x * st <= 1)%Q ->
  pt_pass_filter units [(d, [BArg (FNum 0); BArg (FNum x)])] p = Err ValueError /\
  pt_pass_filter units [(d, [BArg (FNum 0); BArg FNone])] p = Err ValueError /\
  ((2 * x * st == 1)%Q -> forall y, (0 < y)%Q -> (y < x)%Q ->
   pt_pass_filter units [(d, [BArg (FNum y); BArg (FNum x)])] p = Err ValueError /\
   pt_pass_filter units [(d, [BArg FNone; BArg (FNum x)])] p = Err ValueError).
Proof. exact @pass_ends. Qed.
Print Assumptions C88_ends_refuted.
(** Dots do not count as a missing limit; with no limit at all an assertion fails. *)
Theorem C88_dots_refuted : forall A units d (p : patch A) ax m st a b, dimension p d ax m -> step_is m st ->
  In (a, b) [(BDots, BDots); (BDots, BArg FNone); (BArg FNone, BDots)] -> pt_pass_filter units [(d, [a; b])] p = Err AssertionError.
Proof. exact @pass_dots. Qed.
Print Assumptions C88_dots_refuted.
(** Along coordinates that fall, every positive limit is refused. *)
Theorem C88_descending_refuted : forall A units d (p : patch A) ax m st a b x, dimension p d ax m -> step_is m st -> (st < 0)%Q ->
  plain a -> plain b -> number a = Some x \/ number b = Some x -> (0 < x)%Q ->
  pt_pass_filter units [(d, [BArg a; BArg b])] p = Err FilterValueError.
Proof. exact @pass_descending. Qed.
Print Assumptions C88_descending_refuted.
(** notch_filter removes, along every dimension named, the frequency given. *)
Theorem C88_notch : forall A units (p : patch A) kw, kw <> [] ->
  (forall d x, In (d, x) kw -> exists ax m st v, dimension p d ax m /\ step_is m st /\ (0 < st)%Q /\ x = FNum v /\ (0 <= v)%Q /\ (2 * v * st <= 1)%Q) ->
  exists out, pt_notch_filter units kw p = Ok out /\
    Forall2 (fun e o => exists m st v, dimension p (fst e) (fst o) m /\ step_is m st /\ snd e = FNum v /\ (snd o == 2 * v * st)%Q) kw out.
Proof. exact @notch_ok. Qed.
Print Assumptions C88_notch.
(** Frequencies that are too high are refused; negative ones by scipy only; along
    falling coordinates all that are positive. *)
Theorem C88_notch_refused : forall A units (p : patch A) d ax m st x, dimension p d ax m -> step_is m st ->
  ((0 < st)%Q -> (1 < 2 * x * st)%Q -> pt_notch_filter units [(d, FNum x)] p = Err FilterValueError) /\
  ((0 < st)%Q -> (x < 0)%Q -> pt_notch_filter units [(d, FNum x)] p = Err ValueError) /\
  ((st < 0)%Q -> (0 < x)%Q -> pt_notch_filter units [(d, FNum x)] p = Err FilterValueError).
Proof. exact @notch_refused. Qed.
Print Assumptions C88_notch_refused.

Definition recording : patch Z :=
  mkPatch (mkCm ["distance"; "time"] [("distance", rng 0 2 2); ("time", M1 (CRange (mkRange KTime 0 30000000 10000000 3)))] [("distance", ["distance"]); ("time", ["time"])])
    (mkNd [2; 3] [1; 2; 3; 4; 5; 6]).
Definition fallen : patch Z :=
  mkPatch (mkCm ["distance"] [("distance", rng 4 (-2) 2)] [("distance", ["distance"])]) (mkNd [2] [1; 2]).
Definition designed (r : result (nat * design)) : option (nat * list Q) :=
  match r with Ok (n, Band l h) => Some (n, [Qred l; Qred h]) | Ok (n, High l) => Some (n, [Qred l]) | Ok (n, Low h) => Some (n, [Qred h]) | Err _ => None end.
Example C88_applies :
  (exists m, dimension recording "time" 1 m /\ step_is m (1 # 100)) /\
  designed (pt_pass_filter (Some second) [("time", [BArg (FNum 10); BArg (FNum 20)])] recording) = Some (1%nat, [1 # 5; 2 # 5]%Q) /\
  designed (pt_pass_filter None [("time", [BDots; BArg (FNum 20)])] recording) = Some (1%nat, [2 # 5]%Q) /\
  designed (pt_pass_filter (Some second) [("time", [BArg (FQuant (mkQuant 10 hertz)); BArg (FQuant (mkQuant 20 hertz))])] recording) = Some (1%nat, [1 # 5; 2 # 5]%Q) /\
  designed (pt_pass_filter (Some metre) [("distance", [BArg (FQuant (mkQuant 5 metre)); BArg (FQuant (mkQuant 10 metre))])] recording) = Some (0%nat, [2 # 5; 4 # 5]%Q) /\
  pt_pass_filter None [("time", [BArg (FNum 20); BArg (FNum 10)])] recording = Err FilterValueError /\
  pt_pass_filter None [("time", [BArg (FNum 20); BArg (FNum 51)])] recording = Err FilterValueError /\
  pt_pass_filter None [("time", [BArg (FNum 20); BArg (FNum 50)])] recording = Err ValueError /\
  pt_pass_filter None [("depth", [BArg (FNum 20); BArg (FNum 50)])] recording = Err CoordError /\
  (exists out, pt_notch_filter (fun _ => None) [("time", FNum 10); ("distance", FNum (1 # 5))] recording = Ok out /\ map (fun o => (fst o, Qred (snd o))) out = [(1%nat, 1 # 5); (0%nat, 4 # 5)]%Q) /\
  pt_notch_filter (fun _ => None) [("time", FNum 51)] recording = Err FilterValueError /\
  (exists m, dimension fallen "distance" 0 m /\ step_is m (-(2)) /\ pt_pass_filter None [("distance", [BArg (FNum (1 # 10)); BArg (FNum (1 # 5))])] fallen = Err FilterValueError).
Proof.
  split.
  { eexists. split; [split; [repeat constructor; cbn; intuition discriminate|split; reflexivity]|]. eexists. split; [reflexivity|]. reflexivity. }
  repeat (split; [vm_compute; reflexivity|]). split; [eexists; split; vm_compute; reflexivity|]. split; [vm_compute; reflexivity|].
  eexists. split; [split; [repeat constructor; cbn; intuition discriminate|split; reflexivity]|]. split; [eexists; split; [reflexivity|reflexivity]|vm_compute; reflexivity].
Qed.

(** * C89: slope_filter *)

(** After the transformation, the element at frequency [f] and wavenumber [k] is weighted
    by its slope f / k (the wavenumbers are shifted by the machine epsilon): one from [b]
    to [c], zero outside of [a] and [d], and a quarter of a sine between. [invert] turns
    the weights around, and slopes lose their sign unless [directional]. *)
Theorem C89_weights : forall ramp invert directional a b c d fs ks af ak (x : nd Q), rises ramp -> (a <= b)%Q -> (b <= c)%Q -> (c < d)%Q ->
  wf_nd x -> nth_error (nd_shape x) af = Some (zlen fs) -> nth_error (nd_shape x) ak = Some (zlen ks) ->
  (forall k, In k ks -> ~ (k + (1 # 4503599627370496) == 0)%Q) ->
  exists y, masked ramp invert directional (a, b, c, d) fs ks af ak x = Some y /\ wf_nd y /\ nd_shape y = nd_shape x /\
    forall ix i j f k s v, nth_error ix af = Some i -> nth_error ix ak = Some j -> znth fs i = Some f -> znth ks j = Some k -> nd_get x ix = Some v ->
      (s * (k + (1 # 4503599627370496)) == f)%Q ->
      exists w r, weight ramp a b c d (if directional then s else Qabs s) w /\ nd_get y ix = Some (Some r) /\ (r == v * (if invert then 1 - w else w))%Q.
Proof. exact masked_ok. Qed.
Print Assumptions C89_weights.
(** The weights rise up to [c] and fall from [b] on. *)
Theorem C89_ramps : forall ramp a b c d s t v w, rises ramp -> (a <= b)%Q -> (b <= c)%Q -> (c < d)%Q ->
  weight ramp a b c d s v -> weight ramp a b c d t w -> (s <= t)%Q ->
  ((t <= c)%Q -> (v <= w)%Q) /\ ((b <= s)%Q -> (w <= v)%Q).
Proof. exact weight_rises. Qed.
Print Assumptions C89_ramps.
(** Slopes in order pass the check; refused are other than four slopes, arrays out of
    order and patches without the coordinates. *)
Theorem C89_accepted : forall names dims a b c d, (a <= b)%Q -> (b <= c)%Q -> (c <= d)%Q -> In (fst dims) names -> In (snd dims) names ->
  check_slopes names dims (SArray [a; b; c; d]) = Ok (a, b, c, d) /\ check_slopes names dims (SSeq [a; b; c; d]) = Ok (a, b, c, d).
Proof. exact slopes_ok. Qed.
Print Assumptions C89_accepted.
Theorem C89_refused : forall names dims,
  (forall l, zlen l <> 4 -> check_slopes names dims (SArray l) = Err ParameterError /\ check_slopes names dims (SSeq l) = Err ParameterError) /\
  (forall a b c d, ((b < a) \/ (c < b) \/ (d < c))%Q -> check_slopes names dims (SArray [a; b; c; d]) = Err ParameterError) /\
  (forall s, ~ In (fst dims) names \/ ~ In (snd dims) names -> check_slopes names dims s = Err ParameterError).
Proof. exact slopes_refused. Qed.
Print Assumptions C89_refused.
(** Lists and tuples out of order are not refused: python compares them at the first
    place where they differ. *)
Theorem C89_order_refuted : forall dims names a b c d, (a < b)%Q -> In (fst dims) names -> In (snd dims) names ->
  check_slopes names dims (SSeq [a; b; c; d]) = Ok (a, b, c, d).
Proof.
  intros dims names a b c d H I1 I2. apply MuteProofs2.mem_dims in I1, I2. unfold check_slopes. cbn [slopes_of removelast tl lex_le].
  destruct (Qeq_bool a b) eqn:E; [apply Qeq_bool_iff in E; lra|]. rewrite (proj2 (Qle_bool_iff a b)) by lra. rewrite I1, I2. reflexivity.
Qed.
Print Assumptions C89_order_refuted.
(** Without room between the last two slopes, elements of just that slope become NaN. *)
Theorem C89_steep_refuted : forall ramp invert a b c s, (s == c)%Q -> mask_of ramp invert (a, b, c, c) (Some s) = None.
Proof.
  intros ramp invert a b c s E. unfold mask_of. assert (W : EdgeModel.within s c c = true) by (apply within_iff; lra). rewrite W.
  unfold ramp_over. assert (K : Qeq_bool (c - c) 0 = true) by (apply Qeq_bool_iff; ring). rewrite K. destruct invert; reflexivity.
Qed.
Print Assumptions C89_steep_refuted.

Definition straight (x : Q) : Q := x.
Example C89_applies :
  rises straight /\
  option_map (fun y => map (option_map Qred) (nd_flat y)) (masked straight false true (1, 2, 3, 5)%Q [0; 8]%Q [(2 : Q) - (1 # 4503599627370496); (4 : Q) - (1 # 4503599627370496)]%Q 1 0 (mkNd [2; 2] [10; 20; 30; 40]%Q))
    = Some [Some 0; Some 10; Some 0; Some 40]%Q /\
  check_slopes ["distance"; "time"] ("distance", "time") (SSeq [1; 5; 2; 3]%Q) = Ok (1, 5, 2, 3)%Q /\
  check_slopes ["distance"; "time"] ("distance", "time") (SArray [1; 5; 2; 3]%Q) = Err ParameterError /\
  check_slopes ["depth"; "time"] ("distance", "time") (SArray [1; 2; 3; 4]%Q) = Err ParameterError.
Proof. split; [split; [reflexivity|split; [reflexivity|auto]]|]. repeat split; vm_compute; reflexivity. Qed.
