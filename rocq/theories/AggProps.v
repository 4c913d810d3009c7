(** Properties C59 and C60: aggregating along dimensions, and numpy functions applied
    to patches. Model: AggModel.v. Specification vocabulary: AggSpec.v. *)
From Verif Require Import Base BaseFacts CoordModel CoordSpec NdModel NdSpec FrameModel ChunkModel CmModel CmSpec MergeSpec MergeModel
  CmProofs18 ConcatSpec AggModel AggSpec AggProofs AggProofs2 AggProofs3 AggProofs4 AggProofs5 CmProps.
From Coq Require Import Strings.String ZifyBool Lia.
Local Open Scope Z_scope.
Local Open Scope list_scope.
Local Open Scope string_scope.

Definition sum (l : list Z) : Z := fold_right Z.add 0 l.
Definition least (l : list Z) : Z := fold_right Z.min (hd 0 l) l.

(** * C59: aggregating *)

(** With dim_reduce="empty" each dimension asked for, in the order asked for, is
    folded: every line of elements along it becomes what the function makes of it, in
    place. Its only label is kept if it had one and is unknown otherwise; coordinates
    along it are gone unless it had one label; all others are untouched. Without a
    dimension all of them are folded. *)
Theorem C59_empty : forall A (f : list A -> A) (p : patch A) dim, wf_patch p -> plain_names (p_cm p) ->
  match dim with Some l => l <> [] /\ forall d, In d l -> In d (cm_dims (p_cm p)) | None => True end ->
  exists out, aggregate f HEmpty dim p = Ok out /\
    steps (fun d => collapsed f d lone_or_unknown) (match dim with None => cm_dims (p_cm p) | Some l => l end) p out.
Proof. intros A. exact agg_empty. Qed.
Print Assumptions C59_empty.
Example C59_empty_applies :
  wf_patch (ex_p 3 2) /\ plain_names (p_cm (ex_p 3 2)) /\
  (exists out, aggregate sum HEmpty (Some ["x"]) (ex_p 3 2) = Ok out /\ nd_shape (p_data out) = [1; 2] /\ nd_flat (p_data out) = [300; 303] /\
     cm_coords (p_cm out) = [("y", rng 10 (-1) 2); ("lone", M1 (CPart 2)); ("x", M1 (CPart 1))]) /\
  exists out, aggregate sum HEmpty None (ex_p 3 2) = Ok out /\ nd_shape (p_data out) = [1; 1] /\ nd_flat (p_data out) = [603].
Proof.
  split; [apply patch_okb_ok; vm_compute; reflexivity|]. split; [apply (patch_okb_ok (ex_p 3 2)); vm_compute; reflexivity|]. split.
  - eexists. split; [vm_compute; reflexivity|]. vm_compute. repeat split.
  - eexists. split; [vm_compute; reflexivity|]. vm_compute. repeat split.
Qed.

(** With dim_reduce="min" or another function and a time dimension, the one label
    left is what the function makes of the labels. *)
Theorem C59_label : forall A (f : list A -> A) g (p : patch A) d c, wf_patch p -> plain_names (p_cm p) -> In d (cm_dims (p_cm p)) ->
  assoc d (cm_coords (p_cm p)) = Some (M1 c) -> concrete c -> c_kind c = KTime -> c_ints c <> [] ->
  exists out, aggregate f (HFunc g) (Some [d]) p = Ok out /\ collapsed f d (label_of g) p out.
Proof. intros A. exact agg_func. Qed.
Print Assumptions C59_label.
Definition timed (t0 dt n : Z) : patch Z :=
  mkPatch (mkCm ["y"; "t"] [("y", rng 10 (-1) 2); ("t", M1 (CRange (mkRange KTime t0 (t0 + n * dt) dt n))); ("q", M1 (CArr KInt (zrange n)))]
             [("y", ["y"]); ("t", ["t"]); ("q", ["t"])]) (grid 2 n (fun i j => 100 * i + j)).
Example C59_label_applies :
  wf_patch (timed 1000 (-4) 3) /\ plain_names (p_cm (timed 1000 (-4) 3)) /\
  exists out c', aggregate sum (HFunc least) (Some ["t"]) (timed 1000 (-4) 3) = Ok out /\ nd_flat (p_data out) = [3; 303] /\
    assoc "t" (cm_coords (p_cm out)) = Some (M1 c') /\ c_ints c' = [992] /\ map fst (cm_coords (p_cm out)) = ["y"; "t"].
Proof.
  split; [apply patch_okb_ok; vm_compute; reflexivity|]. split; [apply (patch_okb_ok (timed 1000 (-4) 3)); vm_compute; reflexivity|].
  eexists. eexists. split; [vm_compute; reflexivity|]. vm_compute. repeat split.
Qed.

(** REFUTED: dim_reduce="min" gives the dimension its least label. The reduced label of
    an integer dimension reaches get_coord as a bare integer and is taken for a
    length: the call raises CoordDataError, or, when the label happens to be one,
    returns a dimension without a label. *)
Theorem C59_int_label_refuted :
  (exists p : patch Z, wf_patch p /\ plain_names (p_cm p) /\ In "x" (cm_dims (p_cm p)) /\ values_of "x" (p_cm p) = [4; 6; 8] /\
     aggregate sum (HFunc least) (Some ["x"]) p = Err CoordDataError) /\
  exists (p : patch Z) out, wf_patch p /\ plain_names (p_cm p) /\ values_of "x" (p_cm p) = [1; 3; 5] /\
     aggregate sum (HFunc least) (Some ["x"]) p = Ok out /\ assoc "x" (cm_coords (p_cm out)) = Some (M1 (CPart 1)).
Proof.
  set (q := fun a => mkPatch (mkCm ["x"; "y"] [("x", rng a 2 3); ("y", rng 10 (-1) 2)] [("x", ["x"]); ("y", ["y"])]) (grid 3 2 (fun i j => 100 * i + j))).
  split.
  - exists (q 4). split; [apply patch_okb_ok; vm_compute; reflexivity|]. split; [apply (patch_okb_ok (q 4)); vm_compute; reflexivity|]. vm_compute. auto.
  - exists (q 1). eexists. split; [apply patch_okb_ok; vm_compute; reflexivity|]. split; [apply (patch_okb_ok (q 1)); vm_compute; reflexivity|].
    split; [vm_compute; reflexivity|]. split; [vm_compute; reflexivity|]. reflexivity.
Qed.
Print Assumptions C59_int_label_refuted.

(** With dim_reduce="squeeze" the dimensions asked for are gone, with every coordinate
    along them; all other coordinates are untouched. *)
Theorem C59_squeeze : forall A (f : list A -> A) (p : patch A) l e, wf_patch p -> l <> [] -> NoDup l ->
  (forall d, In d l -> In d (cm_dims (p_cm p))) -> In e (cm_dims (p_cm p)) -> ~ In e l ->
  exists out, aggregate f HSqueeze (Some l) p = Ok out /\ steps (removed f) l p out.
Proof. intros A. exact agg_squeeze. Qed.
Print Assumptions C59_squeeze.
Example C59_squeeze_applies :
  exists out, aggregate sum HSqueeze (Some ["x"]) (ex_p 3 2) = Ok out /\ nd_shape (p_data out) = [2] /\ nd_flat (p_data out) = [300; 303] /\
    cm_coords (p_cm out) = [("y", rng 10 (-1) 2); ("lone", M1 (CPart 2))].
Proof. eexists. split; [vm_compute; reflexivity|]. vm_compute. repeat split. Qed.
(** All of them cannot go. *)
Theorem C59_squeeze_all : forall A (f : list A -> A) (p : patch A) dim, wf_patch p ->
  match dim with Some l => forall d, In d l <-> In d (cm_dims (p_cm p)) | None => True end -> aggregate f HSqueeze dim p = Err ParameterError.
Proof. intros A. exact agg_squeeze_all. Qed.
Print Assumptions C59_squeeze_all.

(** A dimension the patch does not have is refused, whatever dim_reduce is ... *)
Theorem C59_unknown : forall A (f : list A -> A) h (p : patch A) l d, In d l -> ~ In d (cm_dims (p_cm p)) ->
  aggregate f h (Some l) p = Err PatchCoordinateError \/ aggregate f h (Some l) p = Err ParameterError.
Proof. intros A. exact agg_unknown. Qed.
Print Assumptions C59_unknown.
(** ... and so is a dim_reduce that means nothing, whatever the dimensions are. *)
Theorem C59_other : forall A (f : list A -> A) (p : patch A) dim, wf_patch p ->
  aggregate f HOther dim p = Err ParameterError \/ aggregate f HOther dim p = Err PatchCoordinateError.
Proof. intros A. exact agg_other. Qed.
Print Assumptions C59_other.
Example C59_refusals_apply :
  aggregate sum HSqueeze (Some ["y"; "x"]) (ex_p 3 2) = Err ParameterError /\ aggregate sum HEmpty (Some ["x"; "z"]) (ex_p 3 2) = Err PatchCoordinateError /\
  aggregate sum HEmpty (Some ["z"]) (ex_p 3 2) = Err ParameterError /\ aggregate sum HOther None (ex_p 3 2) = Err ParameterError.
Proof. vm_compute. repeat split. Qed.

(** * C60: numpy functions *)

(** An outcome with the shape of the patch keeps every coordinate. *)
Theorem C60_same_shape : forall A (p : patch A) (r : nd A) axis, wf_patch p -> nd_shape r = nd_shape (p_data p) ->
  reassemble r axis p = Ok (mkPatch (p_cm p) r).
Proof. intros A. exact np_same. Qed.
Print Assumptions C60_same_shape.

(** An outcome that lost the axes the call was about gives a patch with all
    dimensions: each element is found at its place with the lost axes put back, the
    lost dimensions have one label (unknown unless it was the only one), coordinates
    along them are gone and all others are untouched. *)
Theorem C60_reduced : forall A (p : patch A) (r : nd A) axis axes, wf_patch p -> plain_names (p_cm p) ->
  (forall k, In k axes <-> meant axis (List.length (cm_dims (p_cm p))) k) -> axes <> [] ->
  wf_nd r -> nd_shape r = without axes (nd_shape (p_data p)) ->
  exists out, reassemble r (Some axis) p = Ok out /\ relabelled axes r p out.
Proof. intros A. exact np_reduced. Qed.
Print Assumptions C60_reduced.
Example C60_reduced_applies :
  let r := mkNd [2] [7; 8] in
  (forall k, In k [0%nat] <-> meant (Some [-2]) 2 k) /\ wf_nd r /\ nd_shape r = without [0%nat] [3; 2] /\
  (exists out, reassemble r (Some (Some [-2])) (ex_p 3 2) = Ok out /\ p_data out = mkNd [1; 2] [7; 8] /\
     cm_coords (p_cm out) = [("y", rng 10 (-1) 2); ("lone", M1 (CPart 2)); ("x", M1 (CPart 1))]) /\
  exists out, reassemble (mkNd [] [5]) (Some None) (ex_p 3 2) = Ok out /\ p_data out = mkNd [1; 1] [5].
Proof.
  cbv zeta. split; [|split; [|split; [|split]]].
  - intros k. unfold meant. cbn [In]. split.
    + intros [<-|[]]. split; [lia|]. exists (-2). split; [auto|reflexivity].
    + intros (_ & a & [<-|[]] & Q). left. change (-2 mod Z.of_nat 2) with 0 in Q. lia.
  - split; [repeat constructor; lia|reflexivity].
  - reflexivity.
  - eexists. split; [vm_compute; reflexivity|]. split; reflexivity.
  - eexists. split; [vm_compute; reflexivity|]. reflexivity.
Qed.

(** An outcome of another shape is refused if the function has no axis. *)
Theorem C60_no_axis : forall A (p : patch A) (r : nd A), nd_shape r <> nd_shape (p_data p) -> reassemble r None p = Err ParameterError.
Proof. intros A. exact np_noaxis. Qed.
Print Assumptions C60_no_axis.

(** ufunc.reduce along a dimension: every line of elements along it becomes what the
    function makes of it. *)
Theorem C60_ufunc : forall A (f : list A -> A) (p : patch A) d, wf_patch p -> plain_names (p_cm p) -> In d (cm_dims (p_cm p)) ->
  exists k r out, nth_error (cm_dims (p_cm p)) k = Some d /\ ufunc_reduce f (DName d) p = Ok out /\ folded f k (p_data p) r /\ relabelled [k] r p out.
Proof. intros A. exact ufunc_ok. Qed.
Print Assumptions C60_ufunc.
(** Without a dimension it is the first one. *)
Theorem C60_ufunc_default : forall A (f : list A -> A) (p : patch A) d, wf_patch p -> nth_error (cm_dims (p_cm p)) 0 = Some d ->
  ufunc_reduce f DNone p = ufunc_reduce f (DName d) p.
Proof. intros A. exact ufunc_first. Qed.
Print Assumptions C60_ufunc_default.
(** A dimension the patch does not have is refused. *)
Theorem C60_ufunc_unknown : forall A (f : list A -> A) (p : patch A) d, ~ In d (cm_dims (p_cm p)) -> ufunc_reduce f (DName d) p = Err ParameterError.
Proof. intros A. exact ufunc_unknown. Qed.
Print Assumptions C60_ufunc_unknown.
Example C60_ufunc_applies :
  (exists out, ufunc_reduce sum (DName "y") (ex_p 3 2) = Ok out /\ p_data out = mkNd [3; 1] [1; 201; 401] /\ map fst (cm_coords (p_cm out)) = ["x"; "q"; "lone"; "y"]) /\
  (exists out, ufunc_reduce sum DNone (ex_p 3 2) = Ok out /\ p_data out = mkNd [1; 2] [300; 303]) /\
  ufunc_reduce sum (DName "z") (ex_p 3 2) = Err ParameterError.
Proof.
  split; [|split; [|reflexivity]]; eexists; (split; [vm_compute; reflexivity|]); vm_compute; repeat split.
Qed.

(** REFUTED: ufunc.reduce takes several dimensions. swap_kwargs_dim_to_axis makes a
    list of axes of them, and numpy takes an integer or a tuple: the call always
    raises TypeError. *)
Theorem C60_ufunc_names_refuted : forall A (f : list A -> A) (p : patch A) l, (forall d, In d l -> In d (cm_dims (p_cm p))) ->
  ufunc_reduce f (DNames l) p = Err TypeError.
Proof. intros A. exact ufunc_names. Qed.
Print Assumptions C60_ufunc_names_refuted.

(** REFUTED: every sample keeps its labels. The outcome of np.transpose on a patch
    with as many labels along either dimension has the shape of the patch, so it is
    returned with the dimensions of the patch: the sample at x=2, y=10 is now the one
    that was at x=0, y=9. *)
Theorem C60_transpose_refuted : exists (p out : patch Z) r, wf_patch p /\
  (forall i j, 0 <= i < 2 -> 0 <= j < 2 -> nd_get r [i; j] = nd_get (p_data p) [j; i]) /\
  reassemble r None p = Ok out /\ values_of "x" (p_cm out) = [0; 2] /\ values_of "y" (p_cm out) = [10; 9] /\ cm_dims (p_cm out) = ["x"; "y"] /\
  nd_get (p_data p) [1; 0] = Some 100 /\ nd_get (p_data out) [1; 0] = Some 1.
Proof.
  exists (ex_p 2 2). eexists. exists (mkNd [2; 2] [0; 100; 1; 101]). split; [apply patch_okb_ok; vm_compute; reflexivity|]. split.
  - intros i j Hi Hj. assert (i = 0 \/ i = 1) as [-> | ->] by lia; assert (j = 0 \/ j = 1) as [-> | ->] by lia; reflexivity.
  - split; [vm_compute; reflexivity|]. vm_compute. repeat split.
Qed.
Print Assumptions C60_transpose_refuted.

(** REFUTED: np.sum(patch, axis=0, keepdims=True) gives what it gives without
    keepdims. The axis kept by numpy is put back a second time and the outcome is
    refused. *)
Theorem C60_keepdims_refuted : exists (p out : patch Z) r, wf_patch p /\
  reassemble r (Some (Some [0])) p = Ok out /\ reassemble (p_data out) (Some (Some [0])) p = Err CoordDataError.
Proof.
  exists (ex_p 3 2). eexists. exists (mkNd [2] [300; 303]). split; [apply patch_okb_ok; vm_compute; reflexivity|]. split; [vm_compute; reflexivity|]. vm_compute. reflexivity.
Qed.
Print Assumptions C60_keepdims_refuted.
