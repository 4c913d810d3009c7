(** Properties C78, C79 and C80: derivatives, integrals and strain rates.
    Model: CalcModel.v. Specification vocabulary: CalcSpec.v. *)
From Verif Require Import Base BaseFacts CoordModel CoordSpec NdModel NdSpec FrameModel ChunkModel CmModel CmSpec CmProofs18 CmProps ConcatSpec AggSpec
  CalcModel CalcSpec CalcProofs CalcProofs2 CalcProofs3 CalcProofs4 CalcProofs5.
From Coq Require Import Strings.String QArith Lia Lqa.
Local Open Scope Z_scope.
Local Open Scope list_scope.
Local Open Scope string_scope.

(** * C78: derivatives *)

(** Along one dimension after the other, every sample becomes the slope of the parabola
    through itself and its two neighbours, at the ends that through the outermost three.
    Labels may be unevenly spaced or descend. Coordinates stay. *)
Theorem C78_derivative : forall ints dim step p, wf_patch p -> step <= 1 ->
  (forall d, In d (chosen p dim) -> sorted_dim p d /\ 3 <= length_of d p) ->
  exists out, pt_differentiate ints dim step p = Ok out /\ p_cm out = p_cm p /\
    steps (derivative false 1 (p_cm p)) (chosen p dim) (p_data p) (p_data out) /\ wf_patch out.
Proof. exact differentiate_ok. Qed.
Print Assumptions C78_derivative.

(** With a step the neighbours are that many samples away, and integers stay integers. *)
Theorem C78_step : forall ints dim step p d, wf_patch p -> 1 < step -> chosen p dim = [d] -> sorted_dim p d -> 3 * step <= length_of d p ->
  exists out, pt_differentiate ints dim step p = Ok out /\ p_cm out = p_cm p /\
    derivative ints step (p_cm p) d (p_data p) (p_data out) /\ wf_patch out.
Proof. exact strided_patch. Qed.
Print Assumptions C78_step.

(** The derivative of a parabola is exact, at the ends too. *)
Theorem C78_parabola : forall s cm d a b, wf_cm cm -> derivative false s cm d a b ->
  exists ax c, nth_error (cm_dims cm) ax = Some d /\ assoc d (cm_coords cm) = Some (M1 c) /\
  (in_order c -> 1 <= s -> forall ix i t0 t1 t2, inb (nd_shape a) ix -> nth_error ix ax = Some i ->
    (forall j x y, label c j x -> on_line a ax ix j y -> parabola t0 t1 t2 x y) ->
    exists x q, label c i x /\ nd_get b ix = Some q /\ (q == t1 + 2 * t2 * x)%Q).
Proof. exact derivative_parabola. Qed.
Print Assumptions C78_parabola.

(** Names that are no dimension and unsorted labels are refused; so are too few samples,
    and a step along several dimensions. *)
Theorem C78_refused : forall ints dim step p, wf_patch p ->
  ((exists d, In d (chosen p dim) /\ ~ sorted_dim p d) -> pt_differentiate ints dim step p = Err CoordError) /\
  ((forall d, In d (chosen p dim) -> sorted_dim p d) ->
    (step <= 1 -> (exists d, In d (chosen p dim) /\ length_of d p < 3) -> pt_differentiate ints dim step p = Err ValueError) /\
    (1 < step -> (2 <= List.length (chosen p dim))%nat -> pt_differentiate ints dim step p = Err ParameterError) /\
    (forall d, 1 < step -> chosen p dim = [d] -> length_of d p < 3 * step -> pt_differentiate ints dim step p = Err ValueError)).
Proof.
  intros ints dim step p W. split; [intros H; exact (differentiate_unsorted ints dim step p W H)|]. intros H. split; [|split].
  - intros S B. exact (differentiate_short ints dim step p W S H B).
  - intros S L. exact (strided_several ints dim step p W S H L).
  - intros d S C L. apply (strided_short ints dim step p d W S C); [|exact L]. apply H. rewrite C. left. reflexivity.
Qed.
Print Assumptions C78_refused.

(** ** Witnesses *)
Definition line (cx : mcoord) (l : list Q) : patch Q :=
  mkPatch (mkCm ["x"] [("x", cx)] [("x", ["x"])]) (mkNd [zlen l] l).
Definition sheet (cx cy : mcoord) (n m : Z) (l : list Q) : patch Q :=
  mkPatch (mkCm ["distance"; "time"] [("distance", cx); ("time", cy)] [("distance", ["distance"]); ("time", ["time"])]) (mkNd [n; m] l).
Definition sheet_uneven : patch Q := sheet (M1 (CMono KInt [0; 1; 4])) (rng 0 1 3) 3 3 [0; 1; 2; 1; 3; 5; 16; 20; 24]%Q.
Definition reds (r : result (patch Q)) : list Q := match r with Ok q => map Qred (nd_flat (p_data q)) | Err _ => [] end.
Definition square_line : patch Q := line (rng 0 1 7) [0; 1; 4; 9; 16; 25; 36]%Q.

Example C78_applies :
  wf_patch square_line /\ wf_patch sheet_uneven /\ sorted_dim sheet_uneven "distance" /\ chosen square_line None = ["x"] /\
  reds (pt_differentiate false None 1 square_line) = [0; 2; 4; 6; 8; 10; 12]%Q /\
  reds (pt_differentiate false None 2 square_line) = [0; 2; 4; 6; 8; 10; 12]%Q /\
  reds (pt_differentiate false (Some ["distance"]) 1 sheet_uneven) = [0; 13 # 12; 13 # 6; 2; 35 # 12; 23 # 6; 8; 101 # 12; 53 # 6]%Q /\
  reds (pt_differentiate false None 1 sheet_uneven) = [13 # 12; 13 # 12; 13 # 12; 11 # 12; 11 # 12; 11 # 12; 5 # 12; 5 # 12; 5 # 12]%Q /\
  pt_differentiate false (Some ["y"]) 1 square_line = Err CoordError /\
  pt_differentiate false (Some ["x"]) 3 square_line = Err ValueError /\
  pt_differentiate false None 2 sheet_uneven = Err ParameterError.
Proof.
  split; [apply patch_okb_ok; vm_compute; reflexivity|]. split; [apply patch_okb_ok; vm_compute; reflexivity|].
  split; [split; [left; reflexivity|]; eexists; split; [reflexivity|exact I]|]. repeat split; vm_compute; reflexivity.
Qed.
Definition steep : patch Q := line (rng 0 2 6) [0; 1; 2; 3; 4; 5]%Q.
(** REFUTED: with a step the derivative of a line is still exact. Integers lose their
    fraction: the slope one half becomes nothing. *)
Theorem C78_integers_refuted : exists p q q', wf_patch p /\
  pt_differentiate true (Some ["x"]) 1 p = Ok q /\ pt_differentiate true (Some ["x"]) 2 p = Ok q' /\
  (forall i, 0 <= i < 6 -> exists y, nd_get (p_data q) [i] = Some y /\ (y == 1 # 2)%Q) /\
  (forall i, 0 <= i < 6 -> exists y, nd_get (p_data q') [i] = Some y /\ (y == 0)%Q).
Proof.
  exists steep. eexists. eexists. split; [apply patch_okb_ok; vm_compute; reflexivity|]. split; [vm_compute; reflexivity|]. split; [vm_compute; reflexivity|].
  split; intros i I; assert (i = 0 \/ i = 1 \/ i = 2 \/ i = 3 \/ i = 4 \/ i = 5) as [->|[->|[->|[->|[->| ->]]]]] by lia; eexists; split; vm_compute; reflexivity.
Qed.
Print Assumptions C78_integers_refuted.

(** * C79: integrals *)

(** The running integral: every sample becomes the sum of the trapezoids before it, along
    one dimension after the other. Proved for evenly spaced labels, for the last
    dimension and for two labels; the others are below. *)
Theorem C79_running_partial : forall ints dim p, wf_patch p ->
  (forall d, In d (chosen p dim) -> sorted_dim p d /\ lies_along p d) ->
  exists out, pt_integrate ints dim false p = Ok out /\ p_cm out = p_cm p /\
    steps (running_integral ints (p_cm p)) (chosen p dim) (p_data p) (p_data out) /\ wf_patch out.
Proof. exact cumulative_ok. Qed.
Print Assumptions C79_running_partial.

(** Unevenly spaced labels along another dimension than the last: an error, unless there
    is one width more than the last dimension has samples ... *)
Theorem C79_uneven_refused : forall ints p d last k v, wf_patch p -> nth_error (rev (cm_dims (p_cm p))) 0 = Some last -> d <> last ->
  In d (cm_dims (p_cm p)) -> assoc d (cm_coords (p_cm p)) = Some (M1 (CMono k v)) -> zlen v <> 2 -> zlen v - 1 <> length_of last p ->
  pt_integrate ints (Some [d]) false p = Err ValueError.
Proof. exact cumulative_fails. Qed.
Print Assumptions C79_uneven_refused.

(** The integral over all labels: the dimensions integrated have one sample, labelled
    with the mean, and new coordinates with the limits; what was measured along a
    dimension that gets shorter is dropped. *)
Theorem C79_definite : forall ints dim p, wf_patch p -> plain_names (p_cm p) -> NoDup (chosen p dim) -> new_names (chosen p dim) (p_cm p) ->
  (forall d, In d (chosen p dim) -> sorted_dim p d) ->
  exists out, pt_integrate ints dim true p = Ok out /\
    steps (whole_integral (p_cm p)) (chosen p dim) (p_data p) (p_data out) /\ integrated_labels (chosen p dim) p out.
Proof. exact definite_ok. Qed.
Print Assumptions C79_definite.

Theorem C79_refused : forall ints dim definite p, wf_patch p -> (exists d, In d (chosen p dim) /\ ~ sorted_dim p d) ->
  pt_integrate ints dim definite p = Err CoordError.
Proof. exact integrate_unsorted. Qed.
Print Assumptions C79_refused.

(** ** Witnesses *)
Definition names_of (r : result (patch Q)) : list (string * list Z) :=
  match r with Ok q => map (fun e => (fst e, match snd e with M1 c => c_ints c | _ => [] end)) (cm_coords (p_cm q)) | Err _ => [] end.
Example C79_applies :
  wf_patch sheet_uneven /\ plain_names (p_cm sheet_uneven) /\ new_names ["distance"; "time"] (p_cm sheet_uneven) /\ lies_along sheet_uneven "time" /\
  reds (pt_integrate false (Some ["time"]) false sheet_uneven) = [0; 1 # 2; 2; 0; 2; 6; 0; 18; 40]%Q /\
  reds (pt_integrate false (Some ["distance"]) true sheet_uneven) = [26; 73 # 2; 47]%Q /\
  reds (pt_integrate false None true sheet_uneven) = [73]%Q /\
  names_of (pt_integrate false None true sheet_uneven) =
    [("distance", [1]); ("time", [1]); ("pre_integrate_distance_min", [0]); ("pre_integrate_distance_max", [4]);
     ("pre_integrate_time_min", [0]); ("pre_integrate_time_max", [2])] /\
  pt_integrate false None true (line (M1 (CArr KInt [0; 2; 1])) [1; 1; 1]%Q) = Err CoordError /\
  pt_integrate false (Some ["distance"]) false sheet_uneven = Err ValueError.
Proof.
  split; [apply patch_okb_ok; vm_compute; reflexivity|].
  split; [intros n [<-|[<-|[]]]; reflexivity|].
  split; [intros d x t [<-|[<-|[]]] [<-|[<-|[]]]; split; discriminate|].
  split; [intros c [= <-]; exact I|]. repeat split; vm_compute; reflexivity.
Qed.

(** REFUTED: ... in which case each trapezoid has its own width. They are silently taken
    along the last dimension. Here all samples are 1 and the labels are 0, 1 and 11: the second column ends with
    20 and not with 11. *)
Theorem C79_uneven_refuted : exists p out, wf_patch p /\
  assoc "distance" (cm_coords (p_cm p)) = Some (M1 (CMono KInt [0; 1; 11])) /\
  (forall ix, inb [3; 2] ix -> nd_get (p_data p) ix = Some 1%Q) /\
  pt_integrate false (Some ["distance"]) false p = Ok out /\
  (exists y y', nd_get (p_data out) [2; 0] = Some y /\ (y == 2)%Q /\ nd_get (p_data out) [2; 1] = Some y' /\ (y' == 20)%Q).
Proof.
  exists (sheet (M1 (CMono KInt [0; 1; 11])) (rng 0 1 2) 3 2 (repeat 1%Q 6)). eexists.
  split; [apply patch_okb_ok; vm_compute; reflexivity|]. split; [reflexivity|]. split.
  - intros ix H. inversion H as [|? i ? ? Hi H']; subst. inversion H' as [|? j ? ? Hj H'']; subst. inversion H''; subst.
    assert (i = 0 \/ i = 1 \/ i = 2) as [->|[->| ->]] by lia; assert (j = 0 \/ j = 1) as [->| ->] by lia; vm_compute; reflexivity.
  - split; [vm_compute; reflexivity|]. do 2 eexists. repeat split; vm_compute; reflexivity.
Qed.
Print Assumptions C79_uneven_refuted.

(** REFUTED: the definite integral goes from the smallest label to the largest
    (docstring, integrate.py 100-102). Along descending labels it has the other sign. *)
Theorem C79_sign_refuted : exists p out, wf_patch p /\
  (forall i, 0 <= i < 3 -> nd_get (p_data p) [i] = Some 1%Q) /\
  pt_integrate false (Some ["x"]) true p = Ok out /\ exists y, nd_get (p_data out) [0] = Some y /\ (y == -2)%Q.
Proof.
  exists (line (rng 2 (-1) 3) [1; 1; 1]%Q). eexists. split; [apply patch_okb_ok; vm_compute; reflexivity|]. split.
  - intros i I. assert (i = 0 \/ i = 1 \/ i = 2) as [->|[->| ->]] by lia; vm_compute; reflexivity.
  - split; [vm_compute; reflexivity|]. eexists. split; vm_compute; reflexivity.
Qed.
Print Assumptions C79_sign_refuted.

(** REFUTED: the last value of the running integral is the definite integral. Integers
    lose their fraction in the first only. *)
Theorem C79_integers_refuted : exists p out out', wf_patch p /\
  pt_integrate true (Some ["x"]) false p = Ok out /\ pt_integrate true (Some ["x"]) true p = Ok out' /\
  (exists y, nd_get (p_data out) [1] = Some y /\ (y == 0)%Q) /\ (exists y, nd_get (p_data out') [0] = Some y /\ (y == 1 # 2)%Q).
Proof.
  exists (line (rng 0 1 2) [0; 1]%Q). eexists. eexists. split; [apply patch_okb_ok; vm_compute; reflexivity|].
  split; [vm_compute; reflexivity|]. split; [vm_compute; reflexivity|]. split; eexists; split; vm_compute; reflexivity.
Qed.
Print Assumptions C79_integers_refuted.

(** * C80: strain rates *)

(** An even number of samples as gauge: the derivative along the distance with half as
    many as the step; the gauge length is told. *)
Theorem C80_rate : forall ints s p r, wf_patch p -> In "distance" (cm_dims (p_cm p)) ->
  assoc "distance" (cm_coords (p_cm p)) = Some (M1 (CRange r)) -> 1 <= s -> 3 * s <= r_len r ->
  exists out, pt_strain_rate ints "velocity" (2 * s) p = Ok (out, r_step r * (2 * s)) /\ p_cm out = p_cm p /\
    derivative (ints && (1 <? s)%Z) s (p_cm p) "distance" (p_data p) (p_data out) /\ wf_patch out.
Proof. exact strain_ok. Qed.
Print Assumptions C80_rate.

(** Without edges: the difference of samples a gauge apart, at the middle between them.
    Proved for integer labels with integer middles. *)
Theorem C80_edgeless_partial : forall k p r, wf_patch p -> plain_names (p_cm p) -> In "distance" (cm_dims (p_cm p)) ->
  assoc "distance" (cm_coords (p_cm p)) = Some (M1 (CRange r)) -> r_kind r = KInt -> 0 < k < r_len r -> (2 | k * r_step r) ->
  exists out, pt_strain_edgeless "velocity" k p = Ok (out, r_step r * k) /\ edgeless k r p out.
Proof. exact edgeless_ok. Qed.
Print Assumptions C80_edgeless_partial.

(** Where both have a value, it is the same. *)
Theorem C80_agree : forall s p r out out', wf_patch p -> assoc "distance" (cm_coords (p_cm p)) = Some (M1 (CRange r)) -> r_kind r = KInt -> 1 <= s ->
  2 * s < r_len r ->
  derivative false s (p_cm p) "distance" (p_data p) (p_data out) -> edgeless (2 * s) r p out' ->
  exists ax, nth_error (cm_dims (p_cm p)) ax = Some "distance" /\
  forall ix i, inb (nd_shape (p_data out')) ix -> nth_error ix ax = Some i ->
    exists q q', nd_get (p_data out') ix = Some q /\ nd_get (p_data out) (put ix ax (i + s)) = Some q' /\ (q == q')%Q.
Proof. exact strain_agree. Qed.
Print Assumptions C80_agree.

(** What is refused, and how. *)
Theorem C80_refused : forall ints dt k (p : patch Q), wf_patch p ->
  (~ In "distance" (cm_dims (p_cm p)) -> pt_strain_rate ints dt k p = Err PatchCoordinateError /\ pt_strain_edgeless dt k p = Err PatchCoordinateError) /\
  (In "distance" (cm_dims (p_cm p)) ->
    (dt <> "velocity" -> pt_strain_rate ints dt k p = Err PatchAttributeError /\ pt_strain_edgeless dt k p = Err PatchAttributeError) /\
    (dt = "velocity" ->
      (k <= 0 -> pt_strain_rate ints dt k p = Err ParameterError /\ pt_strain_edgeless dt k p = Err ParameterError) /\
      (~ (2 | k) -> pt_strain_rate ints dt k p = Err ParameterError) /\
      (0 < k -> (forall r, assoc "distance" (cm_coords (p_cm p)) <> Some (M1 (CRange r))) ->
         pt_strain_edgeless dt k p = Err CoordError /\ ((2 | k) -> pt_strain_rate ints dt k p = Err CoordError)))).
Proof. exact strain_errors. Qed.
Print Assumptions C80_refused.
Theorem C80_short : forall ints s p r, wf_patch p -> In "distance" (cm_dims (p_cm p)) ->
  assoc "distance" (cm_coords (p_cm p)) = Some (M1 (CRange r)) -> 1 <= s -> r_len r < 3 * s ->
  pt_strain_rate ints "velocity" (2 * s) p = Err ValueError.
Proof. exact strain_short. Qed.
Print Assumptions C80_short.

(** ** Witnesses *)
Definition fibre : patch Q := sheet (rng 0 2 6) (rng 0 1 1) 6 1 [0; 1; 8; 27; 64; 125]%Q.
Definition reds1 (r : result (patch Q * Z)) : list Q * Z := match r with Ok (q, g) => (map Qred (nd_flat (p_data q)), g) | Err _ => ([], 0) end.
Example C80_applies :
  wf_patch fibre /\ plain_names (p_cm fibre) /\ (2 | 3 * 2) /\
  reds1 (pt_strain_rate false "velocity" 4 fibre) = ([-4; -5 # 2; 8; 31 # 2; 20; 67 # 2]%Q, 8) /\
  reds1 (pt_strain_edgeless "velocity" 4 fibre) = ([8; 31 # 2]%Q, 8) /\
  reds1 (pt_strain_edgeless "velocity" 3 fibre) = ([9 # 2; 21 # 2; 39 # 2]%Q, 6) /\
  names_of (match pt_strain_edgeless "velocity" 3 fibre with Ok (q, _) => Ok q | Err e => Err e end) = [("time", [0]); ("distance", [3; 5; 7])] /\
  pt_strain_rate false "velocity" 3 fibre = Err ParameterError /\ pt_strain_rate false "strain" 2 fibre = Err PatchAttributeError.
Proof.
  split; [apply patch_okb_ok; vm_compute; reflexivity|]. split; [intros n [<-|[<-|[]]]; reflexivity|]. split; [exists 3; reflexivity|]. repeat split; vm_compute; reflexivity.
Qed.
