(** Property C92: centred and normalized data. Model: ScaleModel.v. *)
From Verif Require Import Base CoordModel NdModel NdSpec FrameModel CmModel CmSpec CmProofs18 CmProps MoveSpec TrendSpec ScaleModel ScaleSpec ScaleProofs.
From Coq Require Import Strings.String QArith Qabs Lqa Lia.
Local Open Scope Z_scope.
Local Open Scope list_scope.
Local Open Scope string_scope.

(** Every line loses its mean; NaN stays NaN and does not count. *)
Theorem C92_demean : forall p d, wf_patch p -> In d (cm_dims (p_cm p)) -> exists q, pt_demean d p = Ok q /\
  each_line p q d (fun vs ws => (total_of (known ws) == 0)%Q /\ exists c, (known vs <> [] -> mean_of (known vs) c) /\ elementwise (fun x y => y == x - c)%Q vs ws).
Proof. exact demean_ok. Qed.
Print Assumptions C92_demean.
(** Every line loses its median. *)
Theorem C92_demedian : forall p d, wf_patch p -> In d (cm_dims (p_cm p)) -> exists q, pt_demedian d p = Ok q /\
  each_line p q d (fun vs ws => exists c, (known vs <> [] -> middle (known vs) c /\ middle (known ws) 0) /\ elementwise (fun x y => y == x - c)%Q vs ws).
Proof. exact demedian_ok. Qed.
Print Assumptions C92_demedian.
(** Every line is divided by a positive number after which its norm is one; lines of zeros
    stay as they are. *)
Theorem C92_l1 : forall root p d, wf_patch p -> In d (cm_dims (p_cm p)) -> exists q, pt_normalize root d "l1" p = Ok q /\
  each_line p q d (fun vs ws => scaled vs ws (fun l => total_of (map Qabs l) == 1)%Q).
Proof. exact normalize_l1. Qed.
Print Assumptions C92_l1.
(** The root needs to be known for the sum of the squares of the line only. *)
Theorem C92_l2 : forall root p d, wf_patch p -> In d (cm_dims (p_cm p)) -> exists q, pt_normalize root d "l2" p = Ok q /\
  each_line p q d (fun vs ws => (forall s, s == total_of (squares (known vs)) -> 0 <= root s /\ root s * root s == s)%Q -> scaled vs ws (fun l => total_of (squares l) == 1)%Q).
Proof. exact normalize_l2. Qed.
Print Assumptions C92_l2.
Theorem C92_max : forall root p d, wf_patch p -> In d (cm_dims (p_cm p)) -> exists q, pt_normalize root d "max" p = Ok q /\
  each_line p q d (fun vs ws => scaled vs ws (fun l => (exists y, In y l /\ (Qabs y == 1)%Q) /\ forall y, In y l -> (Qabs y <= 1)%Q)).
Proof. exact normalize_max. Qed.
Print Assumptions C92_max.
(** The sign of every sample. *)
Theorem C92_bit : forall root p d, wf_patch p -> In d (cm_dims (p_cm p)) -> exists q, pt_normalize root d "bit" p = Ok q /\
  each_line p q d (elementwise (fun x y => (0 < x -> y == 1) /\ (x < 0 -> y == - (1)) /\ (x == 0 -> y == 0))%Q).
Proof. exact normalize_bit. Qed.
Print Assumptions C92_bit.
(** Mean zero and variance one. *)
Theorem C92_standardize : forall root p d, wf_patch p -> In d (cm_dims (p_cm p)) -> exists q, pt_standardize root d p = Ok q /\ each_line p q d (standard_line root).
Proof. exact standardize_ok. Qed.
Print Assumptions C92_standardize.
Theorem C92_refused : forall root p d, ~ In d (cm_dims (p_cm p)) ->
  pt_demean d p = Err CoordError /\ pt_demedian d p = Err CoordError /\ pt_standardize root d p = Err CoordError /\ forall norm, pt_normalize root d norm p = Err CoordError.
Proof. exact refused. Qed.
Print Assumptions C92_refused.
Theorem C92_refused_norm : forall root p d norm, In d (cm_dims (p_cm p)) -> ~ In norm ["l1"; "l2"; "max"; "bit"] -> pt_normalize root d norm p = Err ValueError.
Proof. exact refused_norm. Qed.
Print Assumptions C92_refused_norm.

Definition rt (x : Q) : Q := if Qeq_bool x 25 then 5%Q else if Qeq_bool x 1 then 1%Q else 0%Q.
Definition pair_cm (n : Z) := mkCm ["time"; "distance"] [("time", rng 0 2 n); ("distance", rng 0 1 2)] [("time", ["time"]); ("distance", ["distance"])].
Definition sc (n : Z) (l : list (option Q)) : patch (option Q) := mkPatch (pair_cm n) (mkNd [n; 2] l).
Example C92_witness : wf_patch (sc 3 [Some 3; Some 0; None; Some 0; Some (- (4)); Some 0]%Q) /\
  (exists q, pt_normalize rt "time" "l2" (sc 3 [Some 3; Some 0; None; Some 0; Some (- (4)); Some 0]%Q) = Ok q /\ map (option_map Qred) (nd_flat (p_data q)) = [Some (3 # 5); Some 0; None; Some 0; Some (- (4 # 5)); Some 0]%Q) /\
  (exists q, pt_normalize rt "time" "max" (sc 3 [Some 3; Some 0; None; Some 0; Some (- (4)); Some 0]%Q) = Ok q /\ map (option_map Qred) (nd_flat (p_data q)) = [Some (3 # 4); Some 0; None; Some 0; Some (- (1)); Some 0]%Q) /\
  (exists q, pt_demean "time" (sc 3 [Some 3; Some 0; None; Some 0; Some (- (4)); Some 0]%Q) = Ok q /\ map (option_map Qred) (nd_flat (p_data q)) = [Some (7 # 2); Some 0; None; Some 0; Some (- (7 # 2)); Some 0]%Q) /\
  (exists q, pt_standardize rt "time" (sc 2 [Some 3; Some 0; Some 5; Some 2]%Q) = Ok q /\ map (option_map Qred) (nd_flat (p_data q)) = [Some (- (1)); Some (- (1)); Some 1; Some 1]%Q).
Proof.
  split; [apply patch_okb_ok; reflexivity|]. split; [|split; [|split]]; eexists; (split; [vm_compute; reflexivity|reflexivity]).
Qed.
(** The root is known for the lines of these. *)
Example C92_root_witness : (forall s, s == total_of (squares [3; - (4)]) -> 0 <= rt s /\ rt s * rt s == s)%Q /\ (forall v, spread_of [3; 5]%Q v -> 0 <= rt v /\ rt v * rt v == v)%Q.
Proof.
  split.
  - intros s E. assert (E' : (s == 25)%Q) by (rewrite E; reflexivity). unfold rt. rewrite (proj2 (Qeq_bool_iff s 25) E'). rewrite E'. split; [discriminate|reflexivity].
  - intros v (m & M & V). assert (Em : (m == 4)%Q) by (unfold mean_of in M; cbn in M; change (zlen [3; 5]%Q) with 2 in M; change (inject_Z 2) with 2%Q in M; lra).
    unfold mean_of in V. cbn in V. change (zlen _) with 2 in V. rewrite Em in V. assert (E' : (v == 1)%Q) by (change (inject_Z 2) with 2%Q in V; lra).
    unfold rt. replace (Qeq_bool v 25) with false by (symmetry; apply not_true_is_false; intro K; apply Qeq_bool_iff in K; rewrite K in E'; discriminate).
    rewrite (proj2 (Qeq_bool_iff v 1) E'). rewrite E'. split; [discriminate|reflexivity].
Qed.
(** Unlike normalize, which leaves lines of zeros alone, standardize makes constant lines NaN. *)
Theorem C92_finite_refuted : ~ forall root p d q, wf_patch p -> (forall x, (x == 0 \/ x == 1)%Q -> (0 <= root x /\ root x * root x == x)%Q) -> (forall v, In v (nd_flat (p_data p)) -> v <> None) ->
  pt_standardize root d p = Ok q -> forall v, In v (nd_flat (p_data q)) -> v <> None.
Proof.
  intro H. refine (H rt (sc 2 [Some 0; Some 1; Some 0; Some 3]%Q) "time" _ _ _ _ eq_refl None _ eq_refl).
  - apply patch_okb_ok; reflexivity.
  - intros x [E|E]; unfold rt; replace (Qeq_bool x 25) with false by (symmetry; apply not_true_is_false; intro K; apply Qeq_bool_iff in K; rewrite K in E; discriminate).
    + replace (Qeq_bool x 1) with false by (symmetry; apply not_true_is_false; intro K; apply Qeq_bool_iff in K; rewrite K in E; discriminate). rewrite E. split; [discriminate|reflexivity].
    + rewrite (proj2 (Qeq_bool_iff x 1) E). rewrite E. split; [discriminate|reflexivity].
  - intros v [<-|[<-|[<-|[<-|[]]]]]; discriminate.
  - left. reflexivity.
Qed.
Print Assumptions C92_finite_refuted.
