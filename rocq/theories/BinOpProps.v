(** Property C39: operations between patches, and between a patch and an array.
    Model: BinOpModel.v. Specification vocabulary: BinOpSpec.v. *)
From Verif Require Import Base BaseFacts ArgSort CoordModel CoordSpec CoordProofs CoordProofs2 CoordProofs5 NdModel NdSpec FrameModel ChunkModel
  CmModel CmSpec CmProofs17 CmProofs18 BinOpModel BinOpSpec BinOpProofs6 BinOpProofs7 CmProps.
From Coq Require Import Strings.String Sorting.Permutation Sorting.Sorted ZifyBool Lia.
Local Open Scope Z_scope.
Local Open Scope list_scope.
Local Open Scope string_scope.

(** Whatever operator, patches and labels: the result has the dimensions of both,
    the labels both have, and at every position the operator applied to the elements
    of the operands with the labels of that position. Coordinates that are not
    dimensions come from the first operand. Otherwise the call raises
    AssertionError (a coordinate of both differs); it never returns anything else. *)
Theorem C39_aligned : forall A B C (op : A -> B -> C) argsort (p : patch A) (q : patch B),
  valid_argsort argsort -> wf_patch p -> wf_patch q -> operands (p_cm p) (p_cm q) ->
  (exists r vs, binop op argsort p q = Ok r /\ combined op p q r vs) \/
  binop op argsort p q = Err AssertionError.
Proof. intros A B C op argsort p q VA Wp Wq OP. exact (proj1 (binop_ok op argsort p q VA Wp Wq OP)). Qed.
Print Assumptions C39_aligned.

(** It does return a result when only dimensions are named in both and the common
    labels are not nearly but not exactly even. *)
Theorem C39_total : forall A B C (op : A -> B -> C) argsort (p : patch A) (q : patch B),
  valid_argsort argsort -> wf_patch p -> wf_patch q -> operands (p_cm p) (p_cm q) ->
  (forall n, In n (map fst (cm_coords (p_cm p))) -> In n (map fst (cm_coords (p_cm q))) ->
     In n (cm_dims (p_cm p)) \/ In n (cm_dims (p_cm q))) ->
  (forall d c c' v, dim_coord (p_cm p) d = Some c -> dim_coord (p_cm q) d = Some c' ->
     common_labels (c_ints c) (c_ints c') v -> spread v) ->
  exists r vs, binop op argsort p q = Ok r /\ combined op p q r vs.
Proof.
  intros A B C op argsort p q VA Wp Wq OP H1 H2. destruct (binop_ok op argsort p q VA Wp Wq OP) as [[H|H] N]; [exact H|].
  destruct (N H1 H2 H).
Qed.
Print Assumptions C39_total.

(** Patches without a common dimension are refused. *)
Theorem C39_no_shared : forall A B C (op : A -> B -> C) argsort (p : patch A) (q : patch B),
  cm_dims (p_cm p) <> [] -> (forall d, In d (cm_dims (p_cm p)) -> ~ In d (cm_dims (p_cm q))) ->
  binop op argsort p q = Err PatchCoordinateError.
Proof. intros A B C op argsort p q. exact (binop_disjoint op argsort p q). Qed.
Print Assumptions C39_no_shared.

(** A patch and an array (or a scalar, an array without axes): elements are combined
    by position, lengths of 1 stretch, only a dimension without labels grows, and
    coordinates along a dimension that grew are dropped. *)
Theorem C39_array : forall A B C (op : A -> B -> C) (p : patch A) (b : nd B) k lb,
  wf_patch p -> plain_names (p_cm p) -> wf_nd b -> fits p b k lb -> stretchable p lb ->
  exists r, array_op op p b = Ok r /\ scaled op p b k lb r.
Proof. intros A B C op p b k lb Wp PN Wb FT SB. exact (array_scaled op p b k lb Wp PN Wb FT SB). Qed.
Print Assumptions C39_array.

(** An array with more axes than the patch is refused, and so is one that would make
    a dimension with labels grow. *)
Theorem C39_array_refuses : forall A B C (op : A -> B -> C) (p : patch A) (b : nd B),
  wf_patch p -> wf_nd b ->
  (List.length (cm_dims (p_cm p)) < List.length (nd_shape b))%nat \/
  (exists k lb d c, fits p b k lb /\
     (forall e n, In e (cm_dims (p_cm p)) -> dim_len (p_cm p) e n -> lb e = n \/ lb e = 1 \/ n = 1) /\
     In d (cm_dims (p_cm p)) /\ assoc d (cm_coords (p_cm p)) = Some (M1 c) /\ concrete c /\
     c_len c = 1 /\ 1 < lb d) ->
  array_op op p b = Err PatchBroadcastError.
Proof.
  intros A B C op p b Wp Wb [H|(k & lb & d & c & H1 & H2 & H3 & H4 & H5 & H6 & H7)].
  - exact (array_more_axes op p b Wp H).
  - exact (array_labelled op p b k lb d c Wp Wb H1 H2 H3 H4 H5 H6 H7).
Qed.
Print Assumptions C39_array_refuses.

(** ** Witnesses *)
Definition m_ints (m : mcoord) : list Z := match m with M1 c => c_ints c | _ => [] end.
Definition arr (v : list Z) : mcoord := M1 (CArr KInt v).
Definition box (nx ny : Z) (f : Z -> Z -> Z) : nd Z := grid nx ny f.
Definition ex_a : patch Z := mkPatch
  (mkCm ["x"; "y"] [("x", rng 0 2 4); ("y", rng 0 1 2); ("q", arr [7; 9])] [("x", ["x"]); ("y", ["y"]); ("q", ["y"])])
  (box 4 2 (fun i j => 10 * i + j)).
Definition ex_b : patch Z := mkPatch
  (mkCm ["x"; "z"] [("x", arr [6; 2]); ("z", rng 5 5 3)] [("x", ["x"]); ("z", ["z"])])
  (box 2 3 (fun i j => 1000 * i + 100 * j)).

Lemma two_spread a b : spread [a; b].
Proof.
  intros m2 _ d d' (i & x & y & X & Y & ->) (i' & x' & y' & X' & Y' & ->).
  assert (forall j u v, znth [a; b] j = Some u -> znth [a; b] (j + 1) = Some v -> u = a /\ v = b) as G.
  { intros j u v U V. pose proof (proj1 (znth_range _ _) (ex_intro _ _ U)) as U1. pose proof (proj1 (znth_range _ _) (ex_intro _ _ V)) as V1.
    change (zlen [a; b]) with 2 in *. assert (j = 0) as -> by lia.
    change (Some a = Some u) in U. change (Some b = Some v) in V. split; congruence. }
  destruct (G _ _ _ X Y), (G _ _ _ X' Y'). subst. reflexivity.
Qed.

Example ex_operands : wf_patch ex_a /\ wf_patch ex_b /\ operands (p_cm ex_a) (p_cm ex_b).
Proof.
  split; [apply patch_wfb_ok; vm_compute; reflexivity|]. split; [apply patch_wfb_ok; vm_compute; reflexivity|]. split.
  - exists "x". split; left; reflexivity.
  - intros d [<-|[<-|[]]] N; [destruct N; left; reflexivity|]. vm_compute. intuition discriminate.
  - intros d [<-|[<-|[]]] N; [destruct N; left; reflexivity|]. vm_compute. intuition discriminate.
  - intros n [H|H]; cbn in H; repeat (destruct H as [<-|H]; [vm_compute; reflexivity|]); destruct H.
  - intros d. unfold dim_coord. cbn [p_cm ex_a ex_b cm_dims cm_coords]. unfold mem. cbn [existsb assoc].
    destruct (String.eqb_spec d "x") as [->|Nx]; cbn [orb].
    + left. split; cbn; auto.
      * split; repeat constructor; cbn; intuition lia.
      * split; [|apply two_spread]. apply (spread_range (mkRange KInt 0 8 2 4)). vm_compute. intuition (discriminate || auto).
      * intros H. inversion H as [|? ? ? ? H1 H2]; subst. exfalso. vm_compute in H1. apply H1. reflexivity.
    + destruct (String.eqb_spec d "y") as [->|Ny]; cbn [orb]; [vm_compute; reflexivity|].
      destruct (String.eqb_spec d "z") as [->|Nz]; cbn [orb]; [vm_compute; reflexivity|]. exact I.
  - right. exists "y". left. split; [right; left; reflexivity|]. vm_compute. intuition discriminate.
  - intros n m m' H1 H2 N1 N2. cbn in H1, H2, N1, N2. destruct (String.eqb_spec n "x") as [->|Nx]; [destruct N1; auto|].
    destruct (String.eqb_spec n "z") as [->|Nz]; [destruct N2; auto|discriminate].
Qed.

(** x: 0 2 4 6 and 6 2 meet at 2 and 6. *)
Example C39_aligned_witness :
  let r := binop Z.sub stable_argsort ex_a ex_b in
  dims r = ["x"; "y"; "z"] /\ coords r "x" = Some (rng 2 4 2) /\ coords r "q" = Some (rng 7 2 2) /\
  flat r = [10 - 1000; 10 - 1100; 10 - 1200; 11 - 1000; 11 - 1100; 11 - 1200; 30; -70; -170; 31; -69; -169].
Proof. vm_compute. auto. Qed.

(** ** What the code gets wrong *)

(** A patch combined with its own transpose: the managers compare equal because
    dimensions are compared as sets, so nothing is transposed, and the assertion that
    the dimensions are in the same order fails. *)
Theorem C39_transposed_refuted : exists p q : patch Z,
  wf_patch p /\ wf_patch q /\ pt_transpose p [TName "y"; TName "x"] = Ok q /\
  binop Z.add stable_argsort p q = Err AssertionError.
Proof.
  exists (mkPatch (mkCm ["x"; "y"] [("x", rng 0 2 4); ("y", rng 0 1 2)] [("x", ["x"]); ("y", ["y"])]) (box 4 2 (fun i j => 10 * i + j))).
  exists (mkPatch (mkCm ["y"; "x"] [("x", rng 0 2 4); ("y", rng 0 1 2)] [("x", ["x"]); ("y", ["y"])]) (box 2 4 (fun i j => 10 * j + i))).
  split; [apply patch_wfb_ok; vm_compute; reflexivity|]. split; [apply patch_wfb_ok; vm_compute; reflexivity|]. split; vm_compute; reflexivity.
Qed.
Print Assumptions C39_transposed_refuted.

(** Aligning reorders a dimension and the data but not a coordinate along it: the
    first sample at time 1 had [q] = 10, in the sum it has [q] = 30. *)
Theorem C39_associated_refuted : exists (p q : patch Z) r,
  wf_patch p /\ wf_patch q /\ operands (p_cm p) (p_cm q) /\ binop Z.add stable_argsort p q = Ok r /\
  assoc "time" (cm_coords (p_cm p)) = Some (arr [3; 1]) /\ assoc "q" (cm_coords (p_cm p)) = Some (arr [30; 10]) /\
  option_map m_ints (assoc "time" (cm_coords (p_cm r))) = Some [1; 3] /\
  option_map m_ints (assoc "q" (cm_coords (p_cm r))) = Some [30; 10].
Proof.
  exists (mkPatch (mkCm ["time"] [("time", arr [3; 1]); ("q", arr [30; 10])] [("time", ["time"]); ("q", ["time"])]) (mkNd [2] [5; 6])).
  exists (mkPatch (mkCm ["time"] [("time", arr [1; 3])] [("time", ["time"])]) (mkNd [2] [0; 0])).
  eexists.
  split; [apply patch_wfb_ok; vm_compute; reflexivity|]. split; [apply patch_wfb_ok; vm_compute; reflexivity|]. split.
  { split.
    - exists "time". split; left; reflexivity.
    - intros d [<-|[]] N. destruct N. left. reflexivity.
    - intros d [<-|[]] N. destruct N. left. reflexivity.
    - intros n [H|H]; cbn in H; repeat (destruct H as [<-|H]; [vm_compute; reflexivity|]); destruct H.
    - intros d. unfold dim_coord. cbn [p_cm cm_dims cm_coords]. unfold mem. cbn [existsb assoc].
      destruct (String.eqb_spec d "time") as [->|Nx]; cbn [orb]; [|exact I]. left. split; cbn; auto.
      + split; repeat constructor; cbn; intuition lia.
      + split; apply two_spread.
      + intros H. inversion H as [|? ? ? ? H1 H2]; subst. exfalso. vm_compute in H1. apply H1. reflexivity.
    - left. reflexivity.
    - intros n m m' H1 H2 N1 N2. cbn in H1, H2, N1, N2. destruct (String.eqb_spec n "time") as [->|Nx]; [destruct N1; auto|discriminate]. }
  split; [vm_compute; reflexivity|]. repeat split.
Qed.
Print Assumptions C39_associated_refuted.

(** Labels that np.isclose forgives count as equal: these two patches have no label
    in common, and their elements are added all the same. *)
Theorem C39_nearby_refuted : exists (p q : patch Z) r v w,
  wf_patch p /\ wf_patch q /\ binop Z.add stable_argsort p q = Ok r /\
  assoc "x" (cm_coords (p_cm p)) = Some (arr v) /\ assoc "x" (cm_coords (p_cm q)) = Some (arr w) /\
  (forall x, In x v -> ~ In x w) /\ nd_flat (p_data r) = [11; 22].
Proof.
  exists (mkPatch (mkCm ["x"] [("x", arr [1000000; 3000000])] [("x", ["x"])]) (mkNd [2] [1; 2])).
  exists (mkPatch (mkCm ["x"] [("x", arr [1000001; 3000001])] [("x", ["x"])]) (mkNd [2] [10; 20])).
  eexists. exists [1000000; 3000000], [1000001; 3000001].
  split; [apply patch_wfb_ok; vm_compute; reflexivity|]. split; [apply patch_wfb_ok; vm_compute; reflexivity|].
  split; [vm_compute; reflexivity|]. split; [reflexivity|]. split; [reflexivity|]. split; [|reflexivity].
  intros x H K. cbn in H, K. lia.
Qed.
Print Assumptions C39_nearby_refuted.

(** A coordinate that is not a dimension and differs between the operands makes the
    call fail with a bare AssertionError; a coordinate of the second operand only is lost. *)
Theorem C39_extra_coords_refuted : exists p q q' : patch Z, exists r,
  wf_patch p /\ wf_patch q /\ wf_patch q' /\
  binop Z.add stable_argsort p q = Err AssertionError /\
  assoc "u" (cm_coords (p_cm q')) = Some (arr [5; 4]) /\
  binop Z.add stable_argsort p q' = Ok r /\ assoc "u" (cm_coords (p_cm r)) = None.
Proof.
  exists (mkPatch (mkCm ["x"] [("x", rng 0 1 2); ("q", arr [1; 2])] [("x", ["x"]); ("q", ["x"])]) (mkNd [2] [1; 2])).
  exists (mkPatch (mkCm ["x"] [("x", rng 0 1 2); ("q", arr [3; 2])] [("x", ["x"]); ("q", ["x"])]) (mkNd [2] [1; 2])).
  exists (mkPatch (mkCm ["x"] [("x", rng 0 1 2); ("u", arr [5; 4])] [("x", ["x"]); ("u", ["x"])]) (mkNd [2] [1; 2])).
  eexists. do 3 (split; [apply patch_wfb_ok; vm_compute; reflexivity|]).
  split; [vm_compute; reflexivity|]. split; [reflexivity|]. split; [vm_compute; reflexivity|]. reflexivity.
Qed.
Print Assumptions C39_extra_coords_refuted.

(** Witnesses for arrays: a column added to every row; a scalar; a dimension without
    labels that grows and loses its coordinate; a refused one. *)
Example C39_array_witness : wf_patch ex_a /\ plain_names (p_cm ex_a) /\
  fits ex_a (mkNd [2] [100; 200]) 1 (fun d => if String.eqb d "x" then 1 else 2) /\
  stretchable ex_a (fun d => if String.eqb d "x" then 1 else 2) /\
  flat (array_op Z.add ex_a (mkNd [2] [100; 200])) = [100; 201; 110; 211; 120; 221; 130; 231] /\
  flat (array_op Z.add ex_a (mkNd [] [5])) = [5; 6; 15; 16; 25; 26; 35; 36] /\
  let p := mkPatch (mkCm ["x"; "y"] [("x", M1 (CPart 1)); ("y", rng 0 1 2); ("u", arr [3])] [("x", ["x"]); ("y", ["y"]); ("u", ["x"])]) (mkNd [1; 2] [1; 2]) in
  let r := array_op Z.add p (mkNd [3; 1] [10; 20; 30]) in
  flat r = [11; 12; 21; 22; 31; 32] /\ coords r "x" = Some (M1 (CPart 3)) /\ coords r "u" = None /\
  array_op Z.add (mkPatch (mkCm ["x"] [("x", rng 0 1 1)] [("x", ["x"])]) (mkNd [1] [1])) (mkNd [3] [10; 20; 30]) = Err PatchBroadcastError.
Proof.
  split; [apply ex_operands|]. split; [intros n H; cbn in H; repeat (destruct H as [<-|H]; [vm_compute; reflexivity|]); destruct H|].
  split; [split; [cbn; lia|reflexivity|intros d [<-|[]]; reflexivity]|]. split.
  - intros d c [<-|[<-|[]]] [= <-]; cbn; auto.
  - vm_compute. auto 8.
Qed.
