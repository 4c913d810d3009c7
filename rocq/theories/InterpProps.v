(** Property C94: interpolated patches. Model: InterpModel.v. *)
From Verif Require Import Base CoordModel CoordSpec NdModel NdSpec FrameModel CmModel CmSpec CmSpec2 CmProofs18 CmProps MoveSpec InterpModel InterpSpec InterpProofs InterpProofs2.
From Coq Require Import Strings.String QArith Lqa Lia.
Local Open Scope Z_scope.
Local Open Scope list_scope.
Local Open Scope string_scope.

(** The patch has the new labels along the dimension; coordinates of the dimension are
    dropped if its length has changed; every value is on the line through the values at the
    neighbouring labels, or of the two labels nearest to it outside of all labels. *)
Theorem C94_interpolate : forall (p : patch Q) d ax v w, wf_patch p -> plain_names (p_cm p) -> labelled p d ax v ->
  exists q, pt_interpolate d (Some w) p = Ok q /\ wf_patch q /\ relabelled (p_cm p) (p_cm q) d w (zlen w = zlen v) /\
    by_line_to (follows v w) (zlen w) ax (p_data p) (p_data q).
Proof. exact interpolate_ok. Qed.
Print Assumptions C94_interpolate.
(** The values at old labels are kept. *)
Theorem C94_kept : forall (p q : patch Q) d ax v w ix f g i j x, wf_patch p -> plain_names (p_cm p) -> labelled p d ax v -> pt_interpolate d (Some w) p = Ok q ->
  inb (nd_shape (p_data p)) ix -> line (p_data p) ax ix f -> line (p_data q) ax ix g -> znth v i = Some x -> znth w j = Some x ->
  exists y z, znth f i = Some y /\ znth g j = Some z /\ (z == y)%Q.
Proof. exact interpolate_kept. Qed.
Print Assumptions C94_kept.
(** Straight lines stay the same straight lines, also outside of the old labels. *)
Theorem C94_straight : forall (p q : patch Q) d ax v w ix f g s t, wf_patch p -> plain_names (p_cm p) -> labelled p d ax v -> pt_interpolate d (Some w) p = Ok q ->
  inb (nd_shape (p_data p)) ix -> line (p_data p) ax ix f -> line (p_data q) ax ix g ->
  (forall i x y, znth v i = Some x -> znth f i = Some y -> y == s * inject_Z x + t)%Q ->
  forall j x, znth w j = Some x -> exists y, znth g j = Some y /\ (y == s * inject_Z x + t)%Q.
Proof. exact interpolate_straight. Qed.
Print Assumptions C94_straight.
(** Inside the old labels values are between the values at the neighbouring labels. *)
Theorem C94_between : forall (p q : patch Q) d ax v w ix f g, wf_patch p -> plain_names (p_cm p) -> labelled p d ax v -> pt_interpolate d (Some w) p = Ok q ->
  inb (nd_shape (p_data p)) ix -> line (p_data p) ax ix f -> line (p_data q) ax ix g ->
  forall j x lo hi, znth w j = Some x -> In lo v -> In hi v -> lo <= x <= hi ->
  exists y a b ya yb, znth g j = Some y /\ valued v f a ya /\ valued v f b yb /\ a <= x <= b /\ (forall c, In c v -> c <= a \/ b <= c) /\ (ya <= y <= yb \/ yb <= y <= ya)%Q.
Proof. exact interpolate_between. Qed.
Print Assumptions C94_between.
(** Without new labels those of the snapped coordinate are used. *)
Theorem C94_even : forall (p : patch Q) d ax v c, wf_patch p -> labelled p d ax v -> assoc d (cm_coords (p_cm p)) = Some (M1 c) -> can_snap c ->
  exists c' w, snapped (M1 c) (M1 c') /\ c_values c' = map Some w /\ zlen w = zlen v /\ pt_interpolate d None p = pt_interpolate d (Some w) p.
Proof. exact interpolate_even. Qed.
Print Assumptions C94_even.
Theorem C94_refused : forall (p : patch Q) d s, ~ In d (cm_dims (p_cm p)) -> pt_interpolate d s p = Err ParameterError.
Proof. exact interpolate_refused. Qed.
Print Assumptions C94_refused.

Definition ip_cm := mkCm ["time"; "distance"] [("time", M1 (CMono KTime [0; 10; 30])); ("distance", rng 0 1 2); ("quality", M1 (CMono KInt [1; 2; 9])); ("gauge", M1 (CMono KInt [5; 7]))]
  [("time", ["time"]); ("distance", ["distance"]); ("quality", ["time"]); ("gauge", ["distance"])].
Definition ip : patch Q := mkPatch ip_cm (mkNd [3; 2] [0; 1; 10; 1; 20; 3]%Q).
Example C94_witness : wf_patch ip /\ plain_names ip_cm /\ labelled ip "time" 0 [0; 10; 30] /\ can_snap (CMono KTime [0; 10; 30]) /\
  (exists q, pt_interpolate "time" (Some [5; 10; 20; 40]) ip = Ok q /\ map Qred (nd_flat (p_data q)) = [5; 1; 10; 1; 15; 2; 25; 4]%Q /\
     assoc "quality" (cm_coords (p_cm q)) = None /\ assoc "gauge" (cm_coords (p_cm q)) = Some (rng 5 2 2)) /\
  (exists q, pt_interpolate "time" None ip = Ok q /\ map Qred (nd_flat (p_data q)) = [0; 1; 25 # 2; 3 # 2; 20; 3]%Q /\ assoc "time" (cm_coords (p_cm q)) = Some (M1 (CRange (mkRange KTime 0 45 15 3)))).
Proof.
  split; [apply patch_okb_ok; reflexivity|]. split; [intros n H; cbn in H; repeat (destruct H as [<-|H]; [reflexivity|]); destruct H|]. split.
  - split; [reflexivity|]. split; [repeat constructor; cbn; lia|]. split; [reflexivity || (vm_compute; congruence)|]. eexists. split; [reflexivity|]. split; [reflexivity|exact I].
  - split; [right; exists 0, 30; split; [split; [cbn; auto|cbn; intros; lia]|]; split; [split; [cbn; auto|cbn; intros; lia]|]; split; vm_compute; [congruence|reflexivity]|].
    split; eexists; (split; [vm_compute; reflexivity|]); repeat split; vm_compute; reflexivity.
Qed.
