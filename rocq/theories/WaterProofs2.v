(** Proofs for waterfall plots (C90): patches, images. *)
From Verif Require Import Base BaseFacts CoordModel CoordSpec CoordProofs NdModel NdSpec NdProofs FrameModel CmModel CmSpec CmProofs CmProofs3 CalcModel MoveModel MoveSpec MoveProofs MuteModel MuteProofs
  EdgeModel EdgeSpec EdgeProofs EdgeProofs2 WaterModel WaterSpec WaterProofs.
From Coq Require Import Strings.String QArith Qabs Lqa Lia.
Local Open Scope Z_scope.
Local Open Scope list_scope.

Lemma shows_labels m e t v : shows m e t v -> labels_of m = Some (e, t, map Some v).
Proof.
  intros (c & zs & -> & V & E & T & ->). unfold labels_of.
  assert (E' : e = match c with CRange _ => true | _ => false end).
  { destruct c; destruct e; try reflexivity; [apply E; eauto|..]; exfalso; destruct (proj1 E eq_refl) as (r0 & R); discriminate. }
  assert (T' : t = match c with CRange r => match r_kind r with KTime => true | KInt => false end | CMono KTime _ | CArr KTime _ => true | _ => false end).
  { destruct c as [r|k l|k l|n].
    - destruct (r_kind r) eqn:K; destruct t; try reflexivity; exfalso.
      + destruct (proj1 T eq_refl) as [(r0 & R & K0)|[(l & R)|(l & R)]]; congruence.
      + assert (false = true) by (apply T; left; eauto). discriminate.
    - destruct k; destruct t; try reflexivity; exfalso.
      + destruct (proj1 T eq_refl) as [(r0 & R & K0)|[(l0 & R)|(l0 & R)]]; congruence.
      + assert (false = true) by (apply T; right; left; eauto). discriminate.
    - destruct k; destruct t; try reflexivity; exfalso.
      + destruct (proj1 T eq_refl) as [(r0 & R & K0)|[(l0 & R)|(l0 & R)]]; congruence.
      + assert (false = true) by (apply T; right; right; eauto). discriminate.
    - destruct t; try reflexivity; exfalso. destruct (proj1 T eq_refl) as [(r0 & R & K0)|[(l0 & R)|(l0 & R)]]; congruence. }
  rewrite <- E', <- T', V, !map_map. reflexivity.
Qed.
Lemma traverse_id {A} (l : list A) : traverse id (map Some l) = Some l.
Proof. induction l as [|x t IH]; [reflexivity|]. cbn. rewrite IH. reflexivity. Qed.
Lemma factor_ok k : (1 < k)%Q -> gap_factor_ok (Some k) = Ok k.
Proof. intro H. unfold gap_factor_ok. destruct (Qle_bool k 1) eqn:E; [apply Qle_bool_iff in E; lra|reflexivity]. Qed.
Lemma plane_two {A} (p : patch A) m0 m1 : plane p m0 m1 -> two_dims p = Ok p.
Proof. intros (d0 & d1 & D & _). unfold two_dims. rewrite D. reflexivity. Qed.
Lemma heads_mono sg l : heads sg l -> monotonic_and_finite (map Some l) = true.
Proof. intro H. apply monotone_iff. eauto. Qed.

Lemma water_mesh {A} (p : patch A) m0 m1 e0 t0 v0 e1 t1 v1 sg0 sg1 colored k :
  wf_nd (p_data p) -> plane p m0 m1 -> shows m0 e0 t0 v0 -> shows m1 e1 t1 v1 -> nd_shape (p_data p) = [zlen v0; zlen v1] -> v0 <> [] -> v1 <> [] ->
  heads sg0 v0 -> heads sg1 v1 -> e0 && e1 = false -> (1 < k)%Q ->
  exists xs ys gx gy cx cy b, waterfall p colored (Some k) = Ok (Mesh xs ys b) /\
    gap_edges t0 v0 (if colored then Some k else None) = Ok (ys, gy) /\ gap_edges t1 v1 (if colored then Some k else None) = Ok (xs, gx) /\
    cells ys gy cy /\ cells xs gx cx /\ wf_nd b /\ nd_shape b = [zlen ys - 1; zlen xs - 1] /\
    (forall i j v, nd_get (p_data p) [i; j] = Some v -> exists i' j' c d, znth cy i = Some c /\ znth cx j = Some d /\ side ys i' c /\ side xs j' d /\ nd_get b [i'; j'] = Some (Some v)) /\
    (forall i' j' v, nd_get b [i'; j'] = Some (Some v) -> exists i j c d, nd_get (p_data p) [i; j] = Some v /\ znth cy i = Some c /\ znth cx j = Some d /\ side ys i' c /\ side xs j' d).
Proof.
  intros W P S0 S1 Sh N0 N1 H0 H1 E K. destruct (mesh_ok (p_data p) t0 v0 t1 v1 sg0 sg1 colored k W Sh N0 N1 H0 H1) as (xs & ys & gx & gy & cx & cy & b & B & R).
  exists xs, ys, gx, gy, cx, cy, b. split; [|exact R]. unfold waterfall. rewrite (plane_two p m0 m1 P), (factor_ok k K). cbn [bind].
  destruct P as (d0 & d1 & D & A0 & A1). rewrite D, A0, A1, (shows_labels _ _ _ _ S0), (shows_labels _ _ _ _ S1), E, (heads_mono _ _ H0), (heads_mono _ _ H1). cbn [andb negb orb].
  rewrite !traverse_id. exact B.
Qed.
Lemma extent_ok v : v <> [] -> exists lo hi, extent (map Some v) = (lo, hi) /\ least v lo /\ greatest v hi.
Proof.
  intro N. unfold extent. assert (F : flat_map (fun v => match v with Some q => [q] | None => [] end) (map Some v) = v).
  { induction v as [|x t IH]; [reflexivity|]. destruct t; [reflexivity|]. cbn [map flat_map app]. f_equal. apply IH. discriminate. }
  rewrite F. destruct v as [|x t]; [contradiction|]. eexists. eexists. split; [reflexivity|]. split; [apply qleast_ok; discriminate|apply qgreatest_ok; discriminate].
Qed.
Lemma water_image {A} (p : patch A) m0 m1 e0 t0 v0 e1 t1 v1 colored k :
  plane p m0 m1 -> shows m0 e0 t0 v0 -> shows m1 e1 t1 v1 -> v0 <> [] -> v1 <> [] ->
  (e0 = true /\ e1 = true \/ ~ (exists sg, heads sg v0) \/ ~ (exists sg, heads sg v1)) -> (1 < k)%Q ->
  exists xlo xhi ylo yhi, waterfall p colored (Some k) = Ok (Image xlo xhi ylo yhi (p_data p)) /\ least v1 xlo /\ greatest v1 xhi /\ least v0 ylo /\ greatest v0 yhi.
Proof.
  intros P S0 S1 N0 N1 C K. destruct (extent_ok v0 N0) as (ylo & yhi & Ey & L0 & G0). destruct (extent_ok v1 N1) as (xlo & xhi & Ex & L1 & G1).
  exists xlo, xhi, ylo, yhi. split; [|auto]. unfold waterfall. rewrite (plane_two p m0 m1 P), (factor_ok k K). cbn [bind].
  destruct P as (d0 & d1 & D & A0 & A1). rewrite D, A0, A1, (shows_labels _ _ _ _ S0), (shows_labels _ _ _ _ S1), Ey, Ex.
  assert (Q : (e0 && e1) || negb (monotonic_and_finite (map Some v0) && monotonic_and_finite (map Some v1)) = true).
  { assert (Nm : forall v, ~ (exists sg, heads sg v) -> monotonic_and_finite (map Some v) = false).
    { intros v H. destruct (monotonic_and_finite (map Some v)) eqn:M; [|reflexivity]. exfalso. apply H. apply monotone_iff in M as (l & sg & E & Hd).
      assert (v = l). { clear -E. revert l E. induction v as [|x t IH]; intros [|y l] E; try discriminate; [reflexivity|]. injection E as -> E. f_equal. apply IH, E. } subst l. eauto. }
    destruct C as [[-> ->]|[C|C]]; [reflexivity| |]; rewrite (Nm _ C); [|rewrite Bool.andb_false_r]; cbn; apply Bool.orb_true_r. }
  rewrite Q. reflexivity.
Qed.
Lemma nan_image {A} (p : patch A) m0 c k colored : (1 < k)%Q -> plane p m0 (M1 (CPart c)) -> 0 <= c -> forall e0 t0 v0, shows m0 e0 t0 v0 -> v0 <> [] -> c <> 0 ->
  exists ylo yhi, waterfall p colored (Some k) = Ok (Image 0 (inject_Z (c - 1)) ylo yhi (p_data p)) /\ least v0 ylo /\ greatest v0 yhi.
Proof.
  intros K P Pc e0 t0 v0 S0 N0 Nc. destruct (extent_ok v0 N0) as (ylo & yhi & Ey & L0 & G0). exists ylo, yhi. split; [|auto].
  unfold waterfall. rewrite (plane_two p _ _ P), (factor_ok k K). cbn [bind]. destruct P as (d0 & d1 & D & A0 & A1). rewrite D, A0, A1, (shows_labels _ _ _ _ S0).
  cbn [labels_of c_values]. assert (R : map (option_map (fun z : Z => inject_Z z)) (repeat (@None Z) (Z.to_nat c)) = repeat None (Z.to_nat c)) by (induction (Z.to_nat c); cbn; congruence).
  rewrite R. assert (M : monotonic_and_finite (repeat None (Z.to_nat c)) = false).
  { destruct (Z.to_nat c) eqn:E; [lia|]. reflexivity. }
  rewrite M. assert (Qf : forall x y, (x && false) || negb (y && false) = true) by (intros [] []; reflexivity). rewrite Qf.
  assert (X : extent (repeat None (Z.to_nat c)) = (0%Q, inject_Z (c - 1))).
  { unfold extent. assert (F : forall n, flat_map (fun v : option Q => match v with Some q => [q] | None => [] end) (repeat None n) = []) by (induction n; cbn; auto). rewrite F.
    unfold zlen. rewrite repeat_length, Z2Nat.id by exact Pc. reflexivity. }
  rewrite X, Ey. reflexivity.
Qed.
Lemma water_refused {A} (p : patch A) colored f :
  ((f = None \/ exists k, f = Some k /\ (k <= 1)%Q) -> zlen (cm_dims (p_cm p)) = 2 -> waterfall p colored f = Err ParameterError) /\
  (forall q, zlen (cm_dims (p_cm p)) <> 2 -> pt_squeeze p None = Ok q -> zlen (cm_dims (p_cm q)) <> 2 -> waterfall p colored f = Err ParameterError) /\
  (forall q, zlen (cm_dims (p_cm p)) <> 2 -> pt_squeeze p None = Ok q -> zlen (cm_dims (p_cm q)) = 2 -> waterfall p colored f = waterfall q colored f).
Proof.
  split; [|split].
  - intros H D. unfold waterfall, two_dims. rewrite D. cbn [Z.eqb bind]. change (2 =? 2) with true. cbn [bind].
    destruct H as [->|(k & -> & K)]; [reflexivity|]. unfold gap_factor_ok. apply Qle_bool_iff in K. rewrite K. reflexivity.
  - intros q D S D'. unfold waterfall, two_dims. destruct (Z.eqb_spec (zlen (cm_dims (p_cm p))) 2); [contradiction|]. rewrite S. cbn [bind].
    destruct (Z.eqb_spec (zlen (cm_dims (p_cm q))) 2); [contradiction|]. reflexivity.
  - intros q D S D'. unfold waterfall. unfold two_dims at 1. destruct (Z.eqb_spec (zlen (cm_dims (p_cm p))) 2); [contradiction|]. rewrite S. cbn [bind].
    unfold two_dims. rewrite (proj2 (Z.eqb_eq _ _) D'). reflexivity.
Qed.
(** Rising evenly spaced labels are inside of their pixels. *)
Lemma pixel_in lo hi a st n i : (0 <= st)%Q -> 0 <= i < n -> (lo == a)%Q -> (hi == a + inject_Z (n - 1) * st)%Q ->
  exists l u, pixel lo hi n i l u /\ (l <= a + inject_Z i * st)%Q /\ (a + inject_Z i * st <= u)%Q.
Proof.
  intros P I L H. eexists. eexists. split; [split; reflexivity|]. rewrite L, H.
  assert (N0 : (0 < inject_Z n)%Q) by (change 0%Q with (inject_Z 0); rewrite <- Zlt_Qlt; lia).
  assert (I0 : (0 <= inject_Z i)%Q) by (change 0%Q with (inject_Z 0); rewrite <- Zle_Qle; lia).
  assert (I1 : (inject_Z i + 1 <= inject_Z n)%Q) by (change 1%Q with (inject_Z 1); rewrite <- inject_Z_plus, <- Zle_Qle; lia).
  replace (inject_Z (n - 1)) with (inject_Z n - 1)%Q by (unfold Z.sub; rewrite inject_Z_plus; reflexivity).
  replace (inject_Z (i + 1)) with (inject_Z i + 1)%Q by (rewrite inject_Z_plus; reflexivity). set (x := inject_Z i) in *. set (m := inject_Z n) in *. clearbody x m.
  assert (D1 : (a + x * (a + (m - 1) * st - a) / m == a + x * st - (x * st) / m)%Q) by (field; lra).
  assert (D2 : (a + (x + 1) * (a + (m - 1) * st - a) / m == a + x * st + (m - 1 - x) * st / m)%Q) by (field; lra).
  rewrite D1, D2. assert (0 <= x * st / m)%Q by (apply Qle_shift_div_l; [exact N0|]; rewrite Qmult_0_l; apply Qmult_le_0_compat; lra).
  assert (0 <= (m - 1 - x) * st / m)%Q by (apply Qle_shift_div_l; [exact N0|]; rewrite Qmult_0_l; apply Qmult_le_0_compat; lra). split; lra.
Qed.
Lemma pixel_labels v a st lo hi : (0 <= st)%Q -> (forall i x, znth v i = Some x -> (x == a + inject_Z i * st)%Q) -> least v lo -> greatest v hi ->
  forall i x, znth v i = Some x -> exists l u, pixel lo hi (zlen v) i l u /\ (l <= x)%Q /\ (x <= u)%Q.
Proof.
  intros P V [L1 L2] [G1 G2] i x X. pose proof (znth_lt _ _ _ X) as B.
  assert (Mo : forall i j, i <= j -> (a + inject_Z i * st <= a + inject_Z j * st)%Q).
  { intros i' j' H. assert (inject_Z i' <= inject_Z j')%Q by (rewrite <- Zle_Qle; exact H). apply Qplus_le_r. apply Qmult_le_compat_r; assumption. }
  destruct (znth_ok v 0) as (x0 & X0); [lia|]. destruct (znth_ok v (zlen v - 1)) as (x1 & X1); [lia|].
  assert (I0 : In x0 v) by (eapply znth_in, X0). assert (I1 : In x1 v) by (eapply znth_in, X1).
  assert (El : (lo == a)%Q).
  { apply Qle_antisym. - pose proof (L2 _ I0) as K. rewrite (V _ _ X0) in K. change (inject_Z 0) with 0%Q in K. lra.
    - apply In_nth_error in L1 as (n & L1). assert (Z1 : znth v (Z.of_nat n) = Some lo) by (unfold znth; destruct (Z.of_nat n <? 0) eqn:Q; [apply Z.ltb_lt in Q; lia|]; rewrite Nat2Z.id; exact L1).
      rewrite (V _ _ Z1). specialize (Mo 0 (Z.of_nat n) ltac:(lia)). change (inject_Z 0) with 0%Q in Mo. lra. }
  assert (Eh : (hi == a + inject_Z (zlen v - 1) * st)%Q).
  { apply Qle_antisym. - apply In_nth_error in G1 as (n & G1). assert (Z1 : znth v (Z.of_nat n) = Some hi) by (unfold znth; destruct (Z.of_nat n <? 0) eqn:Q; [apply Z.ltb_lt in Q; lia|]; rewrite Nat2Z.id; exact G1).
      rewrite (V _ _ Z1). apply Mo. pose proof (znth_lt _ _ _ Z1). lia.
    - rewrite <- (V _ _ X1). apply G2, I1. }
  destruct (pixel_in lo hi a st (zlen v) i P B El Eh) as (l & u & Px & P1 & P2). exists l, u. split; [exact Px|]. rewrite (V _ _ X). auto.
Qed.
