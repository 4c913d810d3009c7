(** Properties C90 and C91: waterfall plots. Model: WaterModel.v. *)
From Verif Require Import Base CoordModel NdModel NdSpec FrameModel CmModel CmSpec CmProofs18 CmProps MoveSpec EdgeModel EdgeSpec WaterModel WaterSpec WaterProofs WaterProofs2 WaterProofs3.
From Coq Require Import Strings.String QArith Qabs Lqa Lia.
Local Open Scope Z_scope.
Local Open Scope list_scope.
Local Open Scope string_scope.

(** * C90: what is drawn where *)

(** Labels which rise or fall, not all evenly spaced: a mesh with the edges of
    get_gap_edges (C87). Every sample is drawn in the cell of its labels and nothing is drawn
    anywhere else. *)
Theorem C90_mesh : forall A (p : patch A) m0 m1 e0 t0 v0 e1 t1 v1 sg0 sg1 colored k,
  wf_nd (p_data p) -> plane p m0 m1 -> shows m0 e0 t0 v0 -> shows m1 e1 t1 v1 -> nd_shape (p_data p) = [zlen v0; zlen v1] -> v0 <> [] -> v1 <> [] ->
  heads sg0 v0 -> heads sg1 v1 -> (e0 && e1)%bool = false -> (1 < k)%Q ->
  exists xs ys gx gy cx cy b, waterfall p colored (Some k) = Ok (Mesh xs ys b) /\
    gap_edges t0 v0 (if colored then Some k else None) = Ok (ys, gy) /\ gap_edges t1 v1 (if colored then Some k else None) = Ok (xs, gx) /\
    cells ys gy cy /\ cells xs gx cx /\ wf_nd b /\ nd_shape b = [zlen ys - 1; zlen xs - 1] /\
    (forall i j v, nd_get (p_data p) [i; j] = Some v -> exists i' j' c d, znth cy i = Some c /\ znth cx j = Some d /\ side ys i' c /\ side xs j' d /\ nd_get b [i'; j'] = Some (Some v)) /\
    (forall i' j' v, nd_get b [i'; j'] = Some (Some v) -> exists i j c d, nd_get (p_data p) [i; j] = Some v /\ znth cy i = Some c /\ znth cx j = Some d /\ side ys i' c /\ side xs j' d).
Proof. exact @water_mesh. Qed.
Print Assumptions C90_mesh.
(** Otherwise an image from the smallest label to the largest of both dimensions. *)
Theorem C90_image : forall A (p : patch A) m0 m1 e0 t0 v0 e1 t1 v1 colored k,
  plane p m0 m1 -> shows m0 e0 t0 v0 -> shows m1 e1 t1 v1 -> v0 <> [] -> v1 <> [] ->
  (e0 = true /\ e1 = true \/ ~ (exists sg, heads sg v0) \/ ~ (exists sg, heads sg v1)) -> (1 < k)%Q ->
  exists xlo xhi ylo yhi, waterfall p colored (Some k) = Ok (Image xlo xhi ylo yhi (p_data p)) /\ least v1 xlo /\ greatest v1 xhi /\ least v0 ylo /\ greatest v0 yhi.
Proof. exact @water_image. Qed.
Print Assumptions C90_image.
(** Evenly spaced labels that rise are inside of the pixels of their samples. *)
Theorem C90_pixels : forall v a st lo hi, (0 <= st)%Q -> (forall i x, znth v i = Some x -> (x == a + inject_Z i * st)%Q) -> least v lo -> greatest v hi ->
  forall i x, znth v i = Some x -> exists l u, pixel lo hi (zlen v) i l u /\ (l <= x)%Q /\ (x <= u)%Q.
Proof. exact pixel_labels. Qed.
Print Assumptions C90_pixels.
(** A second dimension without labels: its positions. *)
Theorem C90_positions : forall A (p : patch A) m0 c k colored, (1 < k)%Q -> plane p m0 (M1 (CPart c)) -> 0 <= c ->
  forall e0 t0 v0, shows m0 e0 t0 v0 -> v0 <> [] -> c <> 0 ->
  exists ylo yhi, waterfall p colored (Some k) = Ok (Image 0 (inject_Z (c - 1)) ylo yhi (p_data p)) /\ least v0 ylo /\ greatest v0 yhi.
Proof. exact @nan_image. Qed.
Print Assumptions C90_positions.
(** Factors that are not finite or not above 1, and what has not two dimensions even without
    those of length one, are refused. *)
Theorem C90_refused : forall A (p : patch A) colored f,
  ((f = None \/ exists k, f = Some k /\ (k <= 1)%Q) -> zlen (cm_dims (p_cm p)) = 2 -> waterfall p colored f = Err ParameterError) /\
  (forall q, zlen (cm_dims (p_cm p)) <> 2 -> pt_squeeze p None = Ok q -> zlen (cm_dims (p_cm q)) <> 2 -> waterfall p colored f = Err ParameterError) /\
  (forall q, zlen (cm_dims (p_cm p)) <> 2 -> pt_squeeze p None = Ok q -> zlen (cm_dims (p_cm q)) = 2 -> waterfall p colored f = waterfall q colored f).
Proof. exact @water_refused. Qed.
Print Assumptions C90_refused.

Definition sheet (m0 m1 : mcoord) (a : nd Z) : patch Z :=
  mkPatch (mkCm ["distance"; "time"] [("distance", m0); ("time", m1)] [("distance", ["distance"]); ("time", ["time"])]) a.
Definition gapped : patch Z := sheet (M1 (CMono KInt [0; 1; 2; 10])) (rng 0 2 3) (mkNd [4; 3] [1; 2; 3; 4; 5; 6; 7; 8; 9; 10; 11; 12]).
Definition reduced (r : result (drawing Z)) : option (list Q * list Q * list Z * list (option Z)) :=
  match r with Ok (Mesh xs ys b) => Some (map Qred xs, map Qred ys, nd_shape b, nd_flat b) | _ => None end.
Example C90_mesh_witness :
  wf_patch gapped /\ reduced (waterfall gapped true (Some 3%Q)) =
    Some ([-1; 1; 3; 5]%Q, [(-1 # 2); (1 # 2); (3 # 2); (5 # 2); (19 # 2); (21 # 2)]%Q, [5; 3],
          map Some [1; 2; 3; 4; 5; 6; 7; 8; 9] ++ [None; None; None] ++ map Some [10; 11; 12])%list.
Proof. split; [apply patch_okb_ok; vm_compute; reflexivity|]. vm_compute. reflexivity. Qed.
Example C90_shows_witness : plane gapped (M1 (CMono KInt [0; 1; 2; 10])) (rng 0 2 3) /\ shows (M1 (CMono KInt [0; 1; 2; 10])) false false [0; 1; 2; 10]%Q /\ heads 1 [0; 1; 2; 10]%Q /\ heads 1 [0; 2; 4]%Q.
Proof.
  split; [exists "distance", "time"; repeat split|]. split.
  - exists (CMono KInt [0; 1; 2; 10]), [0; 1; 2; 10]. split; [reflexivity|]. split; [reflexivity|]. split; [split; [discriminate|intros (r & R); discriminate]|]. split; [|reflexivity].
    split; [discriminate|intros [(r & R & _)|[(l & R)|(l & R)]]; discriminate].
  - split; (split; [left; reflexivity|]); intros i x y X Y; pose proof (EdgeProofs.znth_lt _ _ _ X) as B; unfold zlen in B; cbn in B.
    + assert (K : i = 0 \/ i = 1 \/ i = 2 \/ i = 3) by lia. destruct K as [->|[->|[->| ->]]]; cbn in X, Y; try discriminate; injection X as <-; injection Y as <-; reflexivity.
    + assert (K : i = 0 \/ i = 1 \/ i = 2) by lia. destruct K as [->|[->| ->]]; cbn in X, Y; try discriminate; injection X as <-; injection Y as <-; reflexivity.
Qed.
Example C90_image_witness :
  waterfall (sheet (rng 5 1 2) (rng 0 2 3) (mkNd [2; 3] [1; 2; 3; 4; 5; 6])) true (Some 2%Q) = Ok (Image 0 4 5 6 (mkNd [2; 3] [1; 2; 3; 4; 5; 6])).
Proof. vm_compute. reflexivity. Qed.

(** Every sample should be drawn where its label is: evenly spaced labels that fall are drawn
    in the wrong order. *)
Definition falling : patch Z := sheet (rng 10 (-5) 3) (rng 0 2 3) (mkNd [3; 3] [1; 2; 3; 4; 5; 6; 7; 8; 9]).
Theorem C90_falling_refuted : wf_patch falling /\ ~ (forall m0 m1 t0 v0 t1 v1, plane falling m0 m1 -> shows m0 true t0 v0 -> shows m1 true t1 v1 ->
  exists xlo xhi ylo yhi, waterfall falling true (Some 2%Q) = Ok (Image xlo xhi ylo yhi (p_data falling)) /\
    forall i x, znth v0 i = Some x -> exists l u, pixel ylo yhi (zlen v0) i l u /\ (l <= x)%Q /\ (x <= u)%Q).
Proof.
  split; [apply patch_okb_ok; vm_compute; reflexivity|]. intro H.
  assert (S0 : shows (rng 10 (-5) 3) true false [10; 5; 0]%Q).
  { eexists. exists [10; 5; 0]. split; [reflexivity|]. split; [vm_compute; reflexivity|]. split; [split; [eauto|reflexivity]|]. split; [|reflexivity].
    split; [discriminate|intros [(r & R & K)|[(l & R)|(l & R)]]; try discriminate]. injection R as <-. discriminate. }
  assert (S1 : shows (rng 0 2 3) true false [0; 2; 4]%Q).
  { eexists. exists [0; 2; 4]. split; [reflexivity|]. split; [vm_compute; reflexivity|]. split; [split; [eauto|reflexivity]|]. split; [|reflexivity].
    split; [discriminate|intros [(r & R & K)|[(l & R)|(l & R)]]; try discriminate]. injection R as <-. discriminate. }
  destruct (H (rng 10 (-5) 3) (rng 0 2 3) false _ false _ ltac:(exists "distance", "time"; repeat split) S0 S1) as (xlo & xhi & ylo & yhi & E & P).
  vm_compute in E. injection E as _ _ Elo Ehi. destruct (P 0 _ eq_refl) as (l & u & [Pl Pu] & L1 & U1). subst ylo yhi.
  assert (Q : (u < 10)%Q) by (rewrite Pu; vm_compute; reflexivity). lra.
Qed.
Print Assumptions C90_falling_refuted.

(** * C91: color limits *)

(** Without a scale: Tukey's fence; the quartiles are inside and the limits are inside of the
    data. *)
Theorem C91_fence : forall l, l <> [] -> exists a b q1 q3 lo hi, get_scale [] "relative" l = Ok [a; b] /\ quarter l 1 q1 /\ quarter l 3 q3 /\ least l lo /\ greatest l hi /\
  (lo <= a)%Q /\ (a <= q1)%Q /\ (q1 <= q3)%Q /\ (q3 <= b)%Q /\ (b <= hi)%Q /\
  (a == q1 - (3 # 2) * (q3 - q1) \/ a == lo)%Q /\ (b == q3 + (3 # 2) * (q3 - q1) \/ b == hi)%Q /\
  (q1 - (3 # 2) * (q3 - q1) <= a)%Q /\ (b <= q3 + (3 # 2) * (q3 - q1))%Q.
Proof. exact scale_fence. Qed.
Print Assumptions C91_fence.
(** One number: that part of half of the range on both sides of the mean. *)
Theorem C91_mean : forall l s, l <> [] -> ~ (s == 0)%Q -> exists a b m lo hi h, get_scale [s] "relative" l = Ok [a; b] /\ mean_of l m /\ least l lo /\ greatest l hi /\
  (a == m - s * h)%Q /\ (b == m + s * h)%Q /\ ((lo < hi)%Q -> (h == (hi - lo) / 2)%Q) /\ ((lo == hi)%Q -> (h == 1 # 10000000000)%Q).
Proof. exact scale_mean. Qed.
Print Assumptions C91_mean.
(** Two numbers: parts of the range. *)
Theorem C91_range : forall l s0 s1, l <> [] -> (0 <= s0)%Q -> (s0 <= s1)%Q -> exists a b lo hi, get_scale [s0; s1] "relative" l = Ok [a; b] /\ least l lo /\ greatest l hi /\
  (a == lo + s0 * (hi - lo))%Q /\ (b == lo + s1 * (hi - lo))%Q /\ (a <= b)%Q.
Proof. exact scale_range. Qed.
Print Assumptions C91_range.
Theorem C91_absolute : forall l, (forall s, get_scale [s] "absolute" l = Ok [- Qabs s; Qabs s]%Q) /\ (forall a b, get_scale [a; b] "absolute" l = Ok [a; b]) /\ get_scale [] "absolute" l = Ok [].
Proof. exact scale_absolute. Qed.
Print Assumptions C91_absolute.
Theorem C91_refused : forall l s ty,
  (ty <> "absolute" -> ty <> "relative" -> get_scale s ty l = Err ParameterError) /\
  (forall x, (x == 0)%Q -> get_scale [x] "relative" l = Err ParameterError) /\
  (forall x y, (x < 0 \/ y < 0 \/ y < x)%Q -> get_scale [x; y] "relative" l = Err ParameterError) /\
  (3 <= zlen s -> get_scale s "relative" l = Err ParameterError).
Proof. exact scale_refused. Qed.
Print Assumptions C91_refused.
Definition limits (r : result (list Q)) : list Q := match r with Ok l => map Qred l | Err _ => [] end.
Example C91_witness :
  limits (get_scale [] "relative" [1; 2; 3; 4; 100]%Q) = [1; 7]%Q /\ limits (get_scale [1 # 2]%Q "relative" [0; 2; 4]%Q) = [1; 3]%Q /\
  limits (get_scale [1 # 4; 1]%Q "relative" [0; 2; 4]%Q) = [1; 4]%Q /\ limits (get_scale [-3]%Q "absolute" [0]%Q) = [-3; 3]%Q.
Proof. repeat split; vm_compute; reflexivity. Qed.
(** A scale of 1 should give the whole range of the data (the docstring says so). *)
Theorem C91_whole_refuted : ~ (forall l a b lo hi, get_scale [1]%Q "relative" l = Ok [a; b] -> least l lo -> greatest l hi -> (a == lo)%Q /\ (b == hi)%Q).
Proof.
  intro H. destruct (H [0; 0; 0; 10]%Q (-20 # 8)%Q (60 # 8)%Q 0%Q 10%Q) as [E _].
  - vm_compute. reflexivity.
  - split; [left; reflexivity|]. intros x I. repeat destruct I as [<-|I]; try contradiction; vm_compute; congruence.
  - split; [do 3 right; left; reflexivity|]. intros x I. repeat destruct I as [<-|I]; try contradiction; vm_compute; congruence.
  - vm_compute in E. discriminate.
Qed.
Print Assumptions C91_whole_refuted.
(** The lower limit should be below the upper one: one negative number, or data that is
    mostly the same. *)
Theorem C91_order_refuted :
  ~ (forall l s a b, get_scale [s] "relative" l = Ok [a; b] -> (a <= b)%Q) /\ ~ (forall l a b lo hi, get_scale [] "relative" l = Ok [a; b] -> least l lo -> greatest l hi -> (lo < hi)%Q -> (a < b)%Q).
Proof.
  split; intro H.
  - destruct (get_scale [-1]%Q "relative" [0; 2]%Q) as [r|] eqn:E; [|discriminate]. vm_compute in E. injection E as <-. specialize (H [0; 2]%Q (-1)%Q _ _ eq_refl). vm_compute in H. apply H. reflexivity.
  - destruct (get_scale [] "relative" [0; 0; 0; 0; 1]%Q) as [r|] eqn:E; [|discriminate]. vm_compute in E. injection E as <-.
    specialize (H [0; 0; 0; 0; 1]%Q _ _ 0%Q 1%Q eq_refl). assert (K := fun A B => H A B eq_refl).
    assert (C := K ltac:(split; [left; reflexivity|]; intros x I; repeat destruct I as [<-|I]; try contradiction; vm_compute; congruence)
                   ltac:(split; [do 4 right; left; reflexivity|]; intros x I; repeat destruct I as [<-|I]; try contradiction; vm_compute; congruence)).
    vm_compute in C. discriminate.
Qed.
Print Assumptions C91_order_refuted.
