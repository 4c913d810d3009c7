(** Properties C81, C82 and C83: moving windows, the Hampel filter, and median, Sobel,
    Gaussian and Savitzky-Golay filters. Model: MoveModel.v. Specification vocabulary:
    MoveSpec.v. *)
From Verif Require Import Base BaseFacts CoordModel CoordSpec NdModel NdSpec FrameModel ChunkModel CmModel CmSpec CmProofs18 CmProps
  MuteModel MuteProofs2 MoveModel MoveSpec MoveProofs MoveProofs2 MoveProofs3 MoveProofs4 MoveProofs5 MoveProofs6 MoveProofs7.
From Coq Require Import Strings.String QArith Qabs Lia Lqa.
Local Open Scope Z_scope.
Local Open Scope list_scope.
Local Open Scope string_scope.

(** * C81: moving windows *)

(** Without bottleneck, or with another engine, mode or origin, or for medians of an even
    number of samples: every element is made of the [w] elements around it in the line
    continued beyond its ends. *)
Theorem C81_scipy : forall bn root a w o ax e md cval origin mc ddof n, wf_nd a -> nth_error (nd_shape a) ax = Some n -> 0 < w <= n -> o <> OStd ->
  bn = false \/ e = EScipy \/ e = EOther \/ md <> MReflect \/ origin <> 0 \/ (o = OMedian /\ w mod 2 = 0) ->
  - (w / 2) <= origin < w - w / 2 ->
  exists b, moving_window bn root a w (op_name o) ax e md cval origin mc ddof = Ok b /\ centred_windows o w origin md cval ax a b.
Proof. exact scipy_ok. Qed.
Print Assumptions C81_scipy.

(** With bottleneck: only the elements inside the line, at least [mc] of them, and near the
    end the window is the one that ends at the element. *)
Theorem C81_bottleneck : forall root a w o ax e cval mc ddof n, wf_nd a -> nth_error (nd_shape a) ax = Some n -> 0 < w <= n ->
  e = EAuto \/ e = EBottleneck -> (o = OMedian -> w mod 2 = 1) -> (o = OStd -> ddof < mc) -> 0 < mc <= w ->
  exists b, moving_window true root a w (op_name o) ax e MReflect cval 0 mc ddof = Ok b /\ trailing_windows root o w mc ddof ax a b.
Proof. exact bottleneck_ok. Qed.
Print Assumptions C81_bottleneck.

(** Away from the ends both engines give the same for windows with a middle. *)
Theorem C81_agree : forall bn root a w o ax e cval mc ddof n b c, wf_nd a -> nth_error (nd_shape a) ax = Some n -> 0 < w <= n ->
  w mod 2 = 1 -> o <> OStd -> 0 < mc <= w -> e = EAuto \/ e = EBottleneck ->
  moving_window bn root a w (op_name o) ax EScipy MReflect cval 0 mc ddof = Ok b ->
  moving_window true root a w (op_name o) ax e MReflect cval 0 mc ddof = Ok c ->
  forall ix i, inb (nd_shape a) ix -> nth_error ix ax = Some i -> w / 2 <= i < n - w / 2 ->
    exists x y, nd_get b ix = Some (Some x) /\ nd_get c ix = Some (Some y) /\ (x == y)%Q.
Proof. exact engines_agree. Qed.
Print Assumptions C81_agree.

(** Windows that are empty or longer than the line and unknown operations are refused; so
    are standard deviations but from bottleneck, an origin outside the window, and a least
    number of elements that no window has. *)
Theorem C81_refused : forall bn root a w o ax e md cval origin mc ddof n, nth_error (nd_shape a) ax = Some n ->
  (forall op, w <= 0 \/ n < w \/ (forall o', op <> op_name o') ->
     moving_window bn root a w op ax e md cval origin mc ddof = Err ParameterError) /\
  (0 < w <= n ->
    (bn = false \/ e = EScipy \/ e = EOther \/ md <> MReflect \/ origin <> 0 ->
       moving_window bn root a w "std" ax e md cval origin mc ddof = Err ParameterError) /\
    (o <> OStd -> ~ - (w / 2) <= origin < w - w / 2 ->
       moving_window bn root a w (op_name o) ax e md cval origin mc ddof = Err ValueError) /\
    (e = EAuto \/ e = EBottleneck -> (o = OMedian -> w mod 2 = 1) -> (o = OStd -> ddof < mc) -> ~ 0 < mc <= w ->
       moving_window true root a w (op_name o) ax e MReflect cval 0 mc ddof = Err ValueError)).
Proof.
  intros bn root a w o ax e md cval origin mc ddof n E. split; [intros op H; exact (moving_refused bn root a w op ax e md cval origin mc ddof n E H)|].
  intros B. split; [|split].
  - exact (std_refused bn root a w ax e md cval origin mc ddof n E B).
  - exact (origin_refused bn root a w o ax e md cval origin mc ddof n E B).
  - exact (count_refused root a w o ax e cval mc ddof n E B).
Qed.
Print Assumptions C81_refused.

(** ** Witnesses *)
Definition row : nd Q := mkNd [5] [4; 1; 7; 2; 9]%Q.
Definition window (bn : bool) (op : string) (w : Z) (e : engine) (md : bmode) (origin mc : Z) : list (option Q) :=
  match moving_window bn (fun q => q) row w op 0 e md 0 origin mc 0 with
  | Ok b => map (option_map Qred) (nd_flat b)
  | Err _ => []
  end.
Definition somes (l : list Q) : list (option Q) := map Some l.
Example C81_applies :
  wf_nd row /\ nth_error (nd_shape row) 0 = Some 5 /\
  window false "mean" 3 EAuto MReflect 0 1 = somes [3; 4; 10 # 3; 6; 20 # 3]%Q /\
  window true "mean" 3 EAuto MReflect 0 1 = somes [5 # 2; 4; 10 # 3; 6; 6]%Q /\
  window true "mean" 3 EAuto MReflect 0 3 = [None; Some 4; Some (10 # 3); Some 6; Some 6]%Q /\
  window true "median" 3 EAuto MReflect 0 1 = somes [5 # 2; 4; 2; 7; 7]%Q /\
  window true "median" 4 EAuto MReflect 0 1 = somes [4; 4; 4; 7; 9]%Q /\
  window true "sum" 3 EAuto MWrap 0 1 = somes [14; 12; 10; 18; 15]%Q /\
  window true "max" 3 EScipy MConstant 1 1 = somes [4; 4; 7; 7; 9]%Q /\
  window true "std" 3 EAuto MReflect 0 2 = [Some (9 # 4); Some 6; Some (62 # 9); Some (26 # 3); Some (26 # 3)]%Q /\
  window false "std" 3 EAuto MReflect 0 1 = [].
Proof. vm_compute. repeat split; repeat constructor; discriminate. Qed.

(** For windows without a middle the two engines differ everywhere: one takes an element
    more before, the other after. *)
Theorem C81_even_refuted : ~ (forall bn root a w o ax cval mc ddof n b c, wf_nd a -> nth_error (nd_shape a) ax = Some n -> 0 < w <= n ->
  o <> OStd -> 0 < mc <= w ->
  moving_window bn root a w (op_name o) ax EScipy MReflect cval 0 mc ddof = Ok b ->
  moving_window true root a w (op_name o) ax EAuto MReflect cval 0 mc ddof = Ok c ->
  forall ix i, inb (nd_shape a) ix -> nth_error ix ax = Some i -> w / 2 <= i < n - w / 2 ->
    exists x y, nd_get b ix = Some (Some x) /\ nd_get c ix = Some (Some y) /\ (x == y)%Q).
Proof.
  intros H.
  destruct (H true (fun q => q) row 2 OMax O 0%Q 1 0 5 (mkNd [5] (somes [4; 4; 7; 7; 9]%Q)) (mkNd [5] (somes [4; 7; 7; 9; 9]%Q))
              ltac:(split; [repeat constructor; lia|reflexivity]) eq_refl ltac:(lia) ltac:(discriminate) ltac:(lia) eq_refl eq_refl [1] 1
              ltac:(repeat constructor; lia) eq_refl ltac:(split; [discriminate|reflexivity])) as (x & y & X & Y & E).
  vm_compute in X, Y. injection X as <-. injection Y as <-. discriminate.
Qed.
Print Assumptions C81_even_refuted.
(** ... and with an odd number of them near the ends. *)
Theorem C81_ends_refuted : ~ (forall bn root a w o ax cval mc ddof n b c, wf_nd a -> nth_error (nd_shape a) ax = Some n -> 0 < w <= n ->
  w mod 2 = 1 -> o <> OStd -> 0 < mc <= w ->
  moving_window bn root a w (op_name o) ax EScipy MReflect cval 0 mc ddof = Ok b ->
  moving_window true root a w (op_name o) ax EAuto MReflect cval 0 mc ddof = Ok c ->
  forall ix i, inb (nd_shape a) ix -> nth_error ix ax = Some i ->
    exists x y, nd_get b ix = Some (Some x) /\ nd_get c ix = Some (Some y) /\ (x == y)%Q).
Proof.
  intros H.
  pose proof (fun b c => H true (fun q => q) row 3 OMean O 0%Q 1 0 5 b c
              ltac:(split; [repeat constructor; lia|reflexivity]) eq_refl ltac:(lia) eq_refl ltac:(discriminate) ltac:(lia)) as K.
  destruct (moving_window true (fun q => q) row 3 (op_name OMean) 0 EScipy MReflect 0 0 1 0) as [b|] eqn:B; [|discriminate B].
  destruct (moving_window true (fun q => q) row 3 (op_name OMean) 0 EAuto MReflect 0 0 1 0) as [c|] eqn:C; [|discriminate C].
  destruct (K b c eq_refl eq_refl [0] 0 ltac:(repeat constructor; lia) eq_refl) as (x' & y' & X' & Y' & E').
  vm_compute in B, C. injection B as <-. injection C as <-. vm_compute in X', Y'. injection X' as <-. injection Y' as <-. discriminate.
Qed.
Print Assumptions C81_ends_refuted.

(** * C82: outliers *)

(** With exact medians: an element further from the median of the box around it than the
    threshold times the median of those distances becomes that median; all others stay. *)
Theorem C82_exact : forall bn t h samples kw p, wf_patch p -> windows_given p samples true 3 kw -> (0 < h)%Q -> t <> Ints ->
  exists q sizes, pt_hampel bn t (Some h) samples false kw p = Ok q /\ asked_sizes p samples true kw sizes /\ p_cm q = p_cm p /\
    despiked (box_medians MReflect 0 sizes) (match t with F64 => 1 # 4503599627370496 | _ => 1 # 8388608 end) h (p_data p) (p_data q).
Proof. exact hampel_exact. Qed.
Print Assumptions C82_exact.

(** By default the medians are those along one dimension after the other. *)
Theorem C82_approximate : forall bn t h samples kw p, wf_patch p -> windows_given p samples true 3 kw -> (0 < h)%Q -> t <> Ints ->
  (forall sizes ax w n, asked_sizes p samples true kw sizes -> nth_error sizes ax = Some w -> nth_error (nd_shape (p_data p)) ax = Some n -> 1 < w -> w <= n) ->
  exists q sizes, pt_hampel bn t (Some h) samples true kw p = Ok q /\ asked_sizes p samples true kw sizes /\ p_cm q = p_cm p /\
    despiked (medians_in_turn bn 0 sizes) (match t with F64 => 1 # 4503599627370496 | _ => 1 # 8388608 end) h (p_data p) (p_data q).
Proof. exact hampel_approx. Qed.
Print Assumptions C82_approximate.

(** Integers of no more than 24 binary digits are treated exactly and stay integers. *)
Theorem C82_integers : forall bn h samples kw p, wf_patch p -> windows_given p samples true 3 kw -> (0 < h)%Q ->
  (forall x, In x (nd_flat (p_data p)) -> exists z, x = inject_Z z /\ Z.abs z <= 2 ^ 24) ->
  exists q sizes, pt_hampel bn Ints (Some h) samples false kw p = Ok q /\ asked_sizes p samples true kw sizes /\ p_cm q = p_cm p /\
    despiked (box_medians MReflect 0 sizes) (1 # 2 ^ 23) h (p_data p) (p_data q) /\
    forall x, In x (nd_flat (p_data q)) -> exists z, x = inject_Z z.
Proof. exact hampel_ints. Qed.
Print Assumptions C82_integers.

(** Integers of any size are first rounded to 24 binary digits. *)
Theorem C82_large_integers : forall bn h samples kw p, wf_patch p -> windows_given p samples true 3 kw -> (0 < h)%Q ->
  (forall x, In x (nd_flat (p_data p)) -> exists z, x = inject_Z z) ->
  exists a q sizes, pt_hampel bn Ints (Some h) samples false kw p = Ok q /\ asked_sizes p samples true kw sizes /\ p_cm q = p_cm p /\
    nd_shape a = nd_shape (p_data p) /\
    (forall ix z, nd_get (p_data p) ix = Some (inject_Z z) -> exists w, float32_of z w /\ nd_get a ix = Some (inject_Z w)) /\
    despiked (box_medians MReflect 0 sizes) (1 # 2 ^ 23) h a (p_data q).
Proof. exact hampel_large. Qed.
Print Assumptions C82_large_integers.

Example C82_large_witness : float32_of 16777217 16777216 /\ float32_of 16777219 16777220 /\ ~ float32_of 16777217 16777218.
Proof.
  split; [exists 1, 8388608; cbn; lia|]. split; [exists 1, 8388610; cbn; lia|].
  intros (e & m & E & M & B & C & D & F). assert (K : e = 0 \/ e = 1 \/ 2 <= e) by lia. destruct K as [->|[->|K]]; [cbn in *; lia|cbn in *|].
  - assert (m = 8388609) by lia. subst m. destruct F as [F|F]; [lia|discriminate|discriminate].
  - assert (X : 2 ^ e = 4 * 2 ^ (e - 2)) by (rewrite <- (Z.pow_add_r 2 2) by lia; f_equal; lia). rewrite X in M. set (u := m * 2 ^ (e - 2)) in *.
    assert (16777218 = 4 * u) by (subst u; lia). lia.
Qed.

(** Refused are thresholds that are not positive or not finite, names that are no
    dimension, labels that are not even, windows of fewer than three samples and of an even
    number of them if samples are given, and those longer than the dimension by default. *)
Theorem C82_refused : forall bn t h samples approximate p d v, wf_patch p ->
  (forall th kw, th = None \/ (exists x, th = Some x /\ (x <= 0)%Q) -> pt_hampel bn t th samples approximate kw p = Err ParameterError) /\
  ((0 < h)%Q ->
    (forall kw, In (d, v) kw -> ~ In d (cm_dims (p_cm p)) ->
      pt_hampel bn t (Some h) samples approximate kw p = Err ParameterError \/
      pt_hampel bn t (Some h) samples approximate kw p = Err PatchCoordinateError) /\
    (In d (cm_dims (p_cm p)) -> (forall r, assoc d (cm_coords (p_cm p)) <> Some (M1 (CRange r))) ->
      pt_hampel bn t (Some h) samples approximate [(d, v)] p = Err CoordError) /\
    (forall r, In d (cm_dims (p_cm p)) -> assoc d (cm_coords (p_cm p)) = Some (M1 (CRange r)) ->
      (if samples then v < 3 \/ v mod 2 = 0 else 0 < r_step r /\ 0 <= v <= 2 * r_step r) ->
      pt_hampel bn t (Some h) samples approximate [(d, v)] p = Err ParameterError) /\
    (forall ax r, nth_error (cm_dims (p_cm p)) ax = Some d -> assoc d (cm_coords (p_cm p)) = Some (M1 (CRange r)) ->
      3 <= v -> v mod 2 = 1 -> r_len r < v -> pt_hampel bn t (Some h) true true [(d, v)] p = Err ParameterError)).
Proof.
  intros bn t h samples approximate p d v W. split; [intros th kw H; exact (hampel_threshold bn t samples approximate kw p th H)|]. intros H. split; [|split; [|split]].
  - intros kw I N. exact (hampel_unknown bn t h samples approximate kw p d v H I N).
  - intros I. exact (proj1 (hampel_window bn t h samples approximate p d v W H I)).
  - intros r I. exact (proj2 (hampel_window bn t h samples approximate p d v W H I) r).
  - intros ax r. exact (hampel_long bn t h p d ax r v W H).
Qed.
Print Assumptions C82_refused.

(** ** Witnesses *)
Definition plot (n m : Z) (l : list Q) : patch Q :=
  mkPatch (mkCm ["distance"; "time"] [("distance", rng 0 2 n); ("time", rng 0 10 m)] [("distance", ["distance"]); ("time", ["time"])]) (mkNd [n; m] l).
Definition got_list (r : result (patch Q)) : list Q := match r with Ok q => map Qred (nd_flat (p_data q)) | Err _ => [] end.
Definition spiky : patch Q := plot 1 7 [1; 2; 1; 90; 2; 1; 2]%Q.
Definition spiky2 : patch Q := plot 3 5 [1; 2; 1; 2; 1; 2; 1; 90; 1; 2; 1; 2; 1; 2; 1]%Q.
Lemma given_spiky2 : windows_given spiky2 false true 3 [("time", 25); ("distance", 6)] /\ windows_given spiky2 false false 1 [("time", 25); ("distance", 6)].
Proof.
  split; (split; [repeat constructor; cbn; intuition discriminate|]); intros d v [H|[H|[]]]; injection H as <- <-;
    (split; [cbn; tauto|eexists; split; [reflexivity|cbn; lia]]).
Qed.
Example C82_applies :
  wf_patch spiky /\ wf_patch spiky2 /\ windows_given spiky true true 3 [("time", 3)] /\ windows_given spiky2 false true 3 [("time", 25); ("distance", 6)] /\
  got_list (pt_hampel false F64 (Some 3%Q) true false [("time", 3)] spiky) = [1; 2; 1; 2; 2; 2; 2]%Q /\
  got_list (pt_hampel true F64 (Some 3%Q) true true [("time", 3)] spiky) = [1; 2; 1; 2; 2; 2; 2]%Q /\
  got_list (pt_hampel true F64 (Some 3%Q) true true [("time", 3); ("distance", 3)] spiky2) = [1; 2; 1; 2; 1; 2; 1; 2; 1; 2; 1; 2; 1; 2; 1]%Q /\
  got_list (pt_hampel true F32 (Some 3%Q) false false [("time", 25); ("distance", 6)] spiky2) = [1; 2; 1; 2; 1; 1; 1; 2; 1; 1; 1; 2; 1; 2; 1]%Q /\
  got_list (pt_hampel true Ints (Some 3%Q) false false [("time", 25); ("distance", 6)] spiky2) = [1; 2; 1; 2; 1; 1; 1; 2; 1; 1; 1; 2; 1; 2; 1]%Q /\
  pt_hampel true F64 (Some 0%Q) true true [("time", 3)] spiky = Err ParameterError /\
  pt_hampel true F64 (Some 3%Q) true true [("time", 4)] spiky = Err ParameterError /\
  pt_hampel true F64 (Some 3%Q) true true [("time", 9)] spiky = Err ParameterError.
Proof.
  split; [apply patch_okb_ok; vm_compute; reflexivity|]. split; [apply patch_okb_ok; vm_compute; reflexivity|].
  split; [split; [repeat constructor; cbn; tauto|intros d v [H|[]]; injection H as <- <-; split; [cbn; tauto|eexists; split; [reflexivity|split; [lia|reflexivity]]]]|].
  split; [apply given_spiky2|]. repeat split; vm_compute; reflexivity.
Qed.

(** A single large value among small ones is not replaced everywhere: at the first sample it
    is its own neighbour. *)
Theorem C82_edge_refuted : ~ (forall bn w p q i x, wf_patch p -> windows_given p true true 3 [("time", w)] -> nd_shape (p_data p) = [1; 5] ->
  pt_hampel bn F64 (Some 3%Q) true false [("time", w)] p = Ok q ->
  nd_get (p_data p) [0; i] = Some x -> (90 <= x)%Q ->
  (forall j y, j <> i -> nd_get (p_data p) [0; j] = Some y -> (0 <= y <= 2)%Q) -> nd_get (p_data q) [0; i] <> Some x).
Proof.
  intros H. set (p := plot 1 5 [90; 1; 2; 1; 2]%Q). assert (W : wf_patch p) by (apply patch_okb_ok; vm_compute; reflexivity).
  assert (G : windows_given p true true 3 [("time", 3)]).
  { split; [repeat constructor; cbn; tauto|intros d v [K|[]]; injection K as <- <-; split; [cbn; tauto|eexists; split; [reflexivity|split; [lia|reflexivity]]]]. }
  apply (H true 3 p p 0 90%Q W G eq_refl eq_refl eq_refl ltac:(lra)); [|reflexivity].
  intros j y N E. assert (B : inb [1; 5] [0; j]) by (apply NdProofs.nd_get_inb in E; exact E). inversion B as [|? ? ? ? _ B']. inversion B' as [|? ? ? ? B'' _]. subst.
  assert (j = 1 \/ j = 2 \/ j = 3 \/ j = 4) as [-> | [-> | [-> | ->]]] by lia; injection E as <-; lra.
Qed.
Print Assumptions C82_edge_refuted.
(** Larger integers change without being outliers. *)
Theorem C82_integers_refuted : ~ (forall bn w p q c, wf_patch p -> windows_given p true true 3 [("time", w)] ->
  (forall x, In x (nd_flat (p_data p)) -> x = inject_Z c) -> Z.abs c < 2 ^ 31 ->
  pt_hampel bn Ints (Some 3%Q) true false [("time", w)] p = Ok q -> p_data q = p_data p).
Proof.
  intros H. set (p := plot 1 3 (map inject_Z [16777217; 16777217; 16777217])). set (q := plot 1 3 (map inject_Z [16777216; 16777216; 16777216])).
  assert (W : wf_patch p) by (apply patch_okb_ok; vm_compute; reflexivity).
  assert (G : windows_given p true true 3 [("time", 3)]).
  { split; [repeat constructor; cbn; tauto|intros d v [K|[]]; injection K as <- <-; split; [cbn; tauto|eexists; split; [reflexivity|split; [lia|reflexivity]]]]. }
  specialize (H true 3 p q 16777217 W G). discriminate H; [|reflexivity|vm_compute; reflexivity].
  intros x [<-|[<-|[<-|[]]]]; reflexivity.
Qed.
Print Assumptions C82_integers_refuted.

(** * C83: filters *)

(** median_filter: the element in the middle of the box around each, sorted. *)
Theorem C83_median : forall p samples md cval kw, wf_patch p -> kw <> [] -> windows_given p samples false 1 kw ->
  exists q sizes, pt_median_filter samples md cval kw p = Ok q /\ asked_sizes p samples false kw sizes /\
    p_cm q = p_cm p /\ box_medians md cval sizes (p_data p) (p_data q).
Proof. exact median_ok. Qed.
Print Assumptions C83_median.

(** sobel_filter: the element after less the one before, then the weights 1, 2, 1 along
    every other dimension. *)
Theorem C83_sobel : forall p ax d mode md cval, wf_patch p -> nth_error (cm_dims (p_cm p)) ax = Some d ->
  In (mode, md) [("reflect", MReflect); ("constant", MConstant); ("nearest", MNearest); ("mirror", MMirror); ("wrap", MWrap);
                 ("grid-mirror", MReflect); ("grid-constant", MConstant); ("grid-wrap", MWrap)] ->
  exists q, pt_sobel d mode cval p = Ok q /\ p_cm q = p_cm p /\
    weighted_in_turn md cval (([-(1); 0; 1]%Q, ax) :: map (fun k => ([1; 2; 1]%Q, k)) (filter (fun k => negb (Nat.eqb k ax)) (seq 0 (List.length (cm_dims (p_cm p))))))
      (p_data p) (p_data q).
Proof.
  intros p ax d mode md cval W D M. apply sobel_ok; [exact W|exact D|]. cbn [In] in M.
  repeat (destruct M as [M|M]; [injection M as <- <-; reflexivity|]). destruct M.
Qed.
Print Assumptions C83_sobel.

(** gaussian_filter: weights along one named dimension after the other. *)
Theorem C83_gaussian : forall weights p samples md cval kw, wf_patch p -> kw <> [] -> windows_given p samples false 1 kw ->
  exists q l, pt_gaussian weights samples md cval kw p = Ok q /\ p_cm q = p_cm p /\
    Forall2 (fun e x => exists n, asked_size p samples (fst e) (snd e) n /\ fst x = weights n /\ nth_error (cm_dims (p_cm p)) (snd x) = Some (fst e)) kw l /\
    weighted_in_turn md cval l (p_data p) (p_data q).
Proof. exact gaussian_ok. Qed.
Print Assumptions C83_gaussian.

(** savgol_filter: only the dimension named last is filtered. *)
Theorem C83_savgol : forall sg p samples front d v, wf_patch p -> windows_given p samples false 1 (front ++ [(d, v)]) ->
  (forall w f, zlen (sg w f) = zlen f) ->
  exists q n ax, pt_savgol sg samples (front ++ [(d, v)]) p = Ok q /\ p_cm q = p_cm p /\ asked_size p samples d v n /\
    nth_error (cm_dims (p_cm p)) ax = Some d /\ lines_by (sg n) ax (p_data p) (p_data q).
Proof. exact savgol_ok. Qed.
Print Assumptions C83_savgol.

(** Unknown modes and names that are no dimension are refused, and so are uneven labels. *)
Theorem C83_refused : forall p,
  (forall d mode cval, parse_mode mode = None -> pt_sobel d mode cval p = Err FilterValueError) /\
  (forall d mode md cval, parse_mode mode = Some md -> ~ In d (cm_dims (p_cm p)) -> pt_sobel d mode cval p = Err CoordError) /\
  (forall sg weights samples md cval kw,
    (kw = [] -> pt_median_filter samples md cval kw p = Err ParameterError /\ pt_gaussian weights samples md cval kw p = Err ParameterError /\
                pt_savgol sg samples kw p = Err ParameterError) /\
    (forall d v, In (d, v) kw -> ~ In d (cm_dims (p_cm p)) -> exists e, (e = ParameterError \/ e = PatchCoordinateError) /\
       pt_median_filter samples md cval kw p = Err e /\ pt_gaussian weights samples md cval kw p = Err e /\ pt_savgol sg samples kw p = Err e)).
Proof.
  intros p. split; [|split].
  - intros d mode cval E. unfold pt_sobel. rewrite E. reflexivity.
  - intros d mode md cval E N. unfold pt_sobel. rewrite E. unfold get_axis. rewrite (proj2 (CmProofs.index_of_None d _) N). reflexivity.
  - intros sg weights samples md cval kw. split.
    + intros ->. repeat split.
    + intros d v I N. unfold pt_median_filter, pt_gaussian, pt_savgol, sizes_axes.
      destruct (named_unknown (cm_dims (p_cm p)) kw d v I N) as [-> | ->]; [exists ParameterError|exists PatchCoordinateError]; auto.
Qed.
Print Assumptions C83_refused.

(** ** Witnesses *)
Definition halves (n : Z) : list Q := if (n =? 1)%Z then [1 # 4; 1 # 2; 1 # 4]%Q else [1 # 8; 1 # 8; 1 # 2; 1 # 8; 1 # 8]%Q.
Definition smooth (n : Z) (f : list Q) : list Q := correlate (repeat (1 # Z.to_pos n)%Q (Z.to_nat n)) MNearest 0 f.
Example C83_applies :
  wf_patch spiky2 /\ windows_given spiky2 false false 1 [("time", 25); ("distance", 6)] /\ (forall w f, zlen (smooth w f) = zlen f) /\
  got_list (pt_median_filter true MReflect 0 [("time", 3)] spiky2) = [1; 1; 2; 1; 1; 2; 2; 1; 2; 2; 1; 1; 2; 1; 1]%Q /\
  got_list (pt_median_filter false MReflect 0 [("time", 25); ("distance", 6)] spiky2) = [1; 1; 2; 1; 1; 1; 1; 2; 1; 1; 1; 1; 2; 1; 1]%Q /\
  got_list (pt_sobel "time" "reflect" 0 spiky2) = [2; 88; 0; -(88); -(2); 0; 176; 0; -(176); 0; 2; 88; 0; -(88); -(2)]%Q /\
  got_list (pt_sobel "distance" "constant" 1 spiky2) = [3; 90; 178; 90; 3; 1; 0; 0; 0; 1; -(1); -(90); -(178); -(90); -(1)]%Q /\
  got_list (pt_gaussian halves true MReflect 0 [("time", 1)] spiky2) =
    [5 # 4; 3 # 2; 3 # 2; 3 # 2; 5 # 4; 7 # 4; 47 # 2; 91 # 2; 47 # 2; 7 # 4; 5 # 4; 3 # 2; 3 # 2; 3 # 2; 5 # 4]%Q /\
  got_list (pt_gaussian halves false MNearest 0 [("time", 10); ("distance", 4)] spiky2) =
    [21 # 16; 17 # 4; 7; 17 # 4; 21 # 16; 3 # 2; 25 # 2; 47 # 2; 25 # 2; 3 # 2; 21 # 16; 17 # 4; 7; 17 # 4; 21 # 16]%Q /\
  got_list (pt_savgol smooth true [("time", 3); ("distance", 3)] spiky2) =
    [4 # 3; 5 # 3; 92 # 3; 5 # 3; 4 # 3; 4 # 3; 5 # 3; 92 # 3; 5 # 3; 4 # 3; 4 # 3; 5 # 3; 92 # 3; 5 # 3; 4 # 3]%Q /\
  pt_sobel "time" "mirrored" 0 spiky2 = Err FilterValueError /\ pt_median_filter true MReflect 0 [("depth", 3)] spiky2 = Err ParameterError.
Proof.
  split; [apply patch_okb_ok; vm_compute; reflexivity|]. split; [apply given_spiky2|]. split; [intros w f; apply correlate_len|].
  repeat split; vm_compute; reflexivity.
Qed.

(** The documentation of savgol_filter says that it is applied over each selected dimension
    in turn. *)
Theorem C83_savgol_refuted : ~ (forall sg p v w q q1 q2, wf_patch p -> (forall k f, zlen (sg k f) = zlen f) ->
  windows_given p true false 1 [("time", v); ("distance", w)] ->
  pt_savgol sg true [("time", v); ("distance", w)] p = Ok q ->
  pt_savgol sg true [("time", v)] p = Ok q1 -> pt_savgol sg true [("distance", w)] q1 = Ok q2 ->
  map Qred (nd_flat (p_data q)) = map Qred (nd_flat (p_data q2))).
Proof.
  intros H. assert (G : windows_given spiky2 true false 1 [("time", 3); ("distance", 3)]).
  { split; [repeat constructor; cbn; intuition discriminate|]; intros d v [K|[K|[]]]; injection K as <- <-;
    (split; [cbn; tauto|eexists; split; [reflexivity|split; [lia|discriminate]]]). }
  assert (W : wf_patch spiky2) by (apply patch_okb_ok; vm_compute; reflexivity).
  destruct (pt_savgol smooth true [("time", 3); ("distance", 3)] spiky2) as [q|] eqn:A; [|discriminate A].
  destruct (pt_savgol smooth true [("time", 3)] spiky2) as [q1|] eqn:B; [|discriminate B].
  destruct (pt_savgol smooth true [("distance", 3)] q1) as [q2|] eqn:C; [|vm_compute in B; injection B as <-; discriminate C].
  specialize (H smooth spiky2 3 3 q q1 q2 W ltac:(intros; apply correlate_len) G A B C).
  vm_compute in A, B. injection A as <-. injection B as <-. vm_compute in C. injection C as <-. vm_compute in H. discriminate.
Qed.
Print Assumptions C83_savgol_refuted.
