(** Facts behind ReadProps.v: the Febus reader. *)
From Verif Require Import Base BaseFacts CoordModel CoordSpec CoordProofs CoordProofs2 CoordProofs3
  CoordProofs4 CoordProofs5 NdModel ReadModel ReadSpec ReadProofs.
From Coq Require Import ZifyBool.
Ltac Zify.zify_post_hook ::= Z.div_mod_to_equations.

(** ** Rows used of a block *)
Lemma block_pad_ok z n : zone_ok z n -> block_pad z = z_shape1 z.
Proof. intros H. unfold block_pad. destruct (z_versioned z) eqn:E; [|reflexivity]. rewrite (zo_extent z n H E). lia. Qed.

Lemma block_no_pad_ok z n : zone_ok z n -> block_no_pad z = n.
Proof.
  intros H. unfold block_no_pad. destruct (zo_step z n H) as [Hs _].
  destruct (zo_overlap z n H) as [[E1 E2]|[E1 [E3 E2]]].
  - destruct (Z.eqb_spec (z_ext2 z) 0); [contradiction|]. cbn [negb]. rewrite E2. apply rhe_exact. lia.
  - rewrite E1. cbn [Z.eqb negb]. rewrite (block_pad_ok z n H), <- E2. apply rhe_exact. lia.
Qed.

Lemma zone_index_ok z n : zone_ok z n -> zone_index z = Ok (lead z n, lead z n + n - 1).
Proof.
  intros H. unfold zone_index, data_index. rewrite (block_pad_ok z n H), (block_no_pad_ok z n H).
  pose proof (zo_rows z n H). pose proof (zo_n z n H). unfold lead.
  destruct (Z.leb_spec (z_shape1 z) 1); [lia|]. cbv zeta.
  destruct (Z.ltb_spec (z_shape1 z - n) 0); [lia|]. f_equal. f_equal; lia.
Qed.

Lemma lead_bounds z n : zone_ok z n -> 0 <= lead z n /\ lead z n + n <= z_shape1 z.
Proof. intros H. pose proof (zo_n z n H). unfold lead. lia. Qed.

(** ** Coordinates *)
Definition zone_range (z : zone) (n : Z) : crange :=
  let start := z_origin z + lead z n * z_step z in
  mkRange KTime start (start + z_step z * (zlen (z_cube z) * n)) (z_step z) (zlen (z_cube z) * n).

Lemma blocks_pos z n : zone_ok z n -> 1 <= zlen (z_cube z).
Proof.
  intros H. pose proof (zo_blocks z n H). destruct (z_cube z) as [|b t]; [congruence|].
  rewrite zlen_cons. pose proof (zlen_nonneg t). lia.
Qed.

Lemma zone_range_wf z n : zone_ok z n -> wf_range (zone_range z n).
Proof.
  intros H. pose proof (blocks_pos z n H). pose proof (zo_n z n H). destruct (zo_step z n H) as [Hs _].
  unfold wf_range, zone_range; cbn. repeat split; [lia|nia|lia].
Qed.

Lemma zone_time_ok z n : zone_ok z n -> zone_time z = Ok (CRange (zone_range z n)).
Proof.
  intros H. unfold zone_time. rewrite (zone_index_ok z n H). cbn [bind fst snd].
  pose proof (blocks_pos z n H). pose proof (zo_n z n H). destruct (zo_step z n H) as [Hs _].
  replace (lead z n + n - 1 - lead z n + 1) with n by lia.
  replace (n * z_step z * zlen (z_cube z)) with (z_step z * (zlen (z_cube z) * n)) by lia.
  rewrite mk_range_exact by nia. cbn [bind].
  replace (n * zlen (z_cube z)) with (zlen (z_cube z) * n) by lia.
  rewrite change_length_same by (cbn; nia). reflexivity.
Qed.

Lemma zone_time_even z n : zone_ok z n -> even_coord (CRange (zone_range z n)) (zone_times z n).
Proof.
  intros H. exists (zone_range z n). split; [reflexivity|]. split; [apply zone_range_wf; auto|].
  split; [apply (zo_step z n H)|]. rewrite r_values_prog by (apply zone_range_wf; auto). reflexivity.
Qed.

Lemma zone_dist_ok z n : zone_ok z n -> exists c, zone_dist z = Ok c /\ even_coord c (zone_dists z).
Proof.
  intros H. unfold zone_dist. pose proof (zo_cols z n H). destruct (zo_dist z n H) as [Hs Hf].
  replace (z_shape2 z * z_dist_step z) with (z_dist_step z * z_shape2 z) by lia.
  rewrite mk_range_exact by lia. cbn [bind]. rewrite change_length_same by (cbn; lia).
  eexists; split; [reflexivity|]. eexists; split; [reflexivity|].
  match goal with |- wf_range ?r /\ _ => assert (W : wf_range r) by (unfold wf_range; cbn; repeat split; lia) end.
  split; [exact W|]. split; [split; assumption|]. rewrite r_values_prog by exact W. reflexivity.
Qed.

(** ** Picking out of the cube *)
Definition own (z : zone) (n : Z) (block : list (list Z)) : list (list Z) :=
  firstn (Z.to_nat n) (skipn (Z.to_nat (lead z n)) block).

Lemma In_firstn {A} (x : A) n l : In x (firstn n l) -> In x l.
Proof. revert l; induction n as [|n IH]; intros [|y l]; cbn; tauto || (intros [->|H]; [left; auto|right; apply IH; auto]). Qed.
Lemma In_skipn {A} (x : A) n l : In x (skipn n l) -> In x l.
Proof. revert l; induction n as [|n IH]; intros [|y l]; cbn; auto. Qed.

Lemma own_len z n block : zone_ok z n -> In block (z_cube z) -> zlen (own z n block) = n.
Proof.
  intros H Hb. destruct (zo_cube z n H block Hb) as [L _]. pose proof (lead_bounds z n H).
  pose proof (zo_n z n H). unfold own. rewrite zlen_firstn, zlen_skipn by lia. lia.
Qed.

Lemma own_width z n block : zone_ok z n -> In block (z_cube z) -> width (z_shape2 z) (own z n block).
Proof.
  intros H Hb row Hrow. destruct (zo_cube z n H block Hb) as [_ W]. apply W.
  unfold own in Hrow. apply In_firstn in Hrow. apply In_skipn in Hrow. exact Hrow.
Qed.

Lemma zlen_dists z n : zone_ok z n -> zlen (zone_dists z) = z_shape2 z.
Proof. intros H. pose proof (zo_cols z n H). unfold zone_dists. rewrite zlen_progression. lia. Qed.

Lemma cube_index_ok z n bix cix blocks kd : zone_ok z n ->
  np_index (z_cube z) bix = Some blocks -> (forall b, In b blocks -> In b (z_cube z)) ->
  indexer_positions (zlen (zone_dists z)) cix = Some (positions_where kd (zone_dists z)) ->
  cube_index z bix (simple_slice (Some (lead z n)) (Some (lead z n + n - 1 + 1))) cix =
  Ok (map (fun b => map (kept kd (zone_dists z)) (own z n b)) blocks).
Proof.
  intros H Eb Hin Ec. unfold cube_index. rewrite Eb.
  pose proof (lead_bounds z n H). pose proof (zo_n z n H).
  rewrite slice_interval by lia. rewrite <- (zlen_dists z n H), Ec.
  rewrite (traverse_map _ (fun b => map (kept kd (zone_dists z)) (own z n b))); [reflexivity|].
  intros b Hb. apply Hin in Hb. destruct (zo_cube z n H b Hb) as [L W].
  replace (lead z n + n - 1 + 1 - lead z n) with n by lia.
  rewrite gather_interval by lia. fold (own z n b).
  apply traverse_map. intros row Hrow. apply gather_kept. rewrite (zlen_dists z n H).
  symmetry. apply (own_width z n b H Hb row Hrow).
Qed.

Lemma concat_blocks {A B} (f : A -> list (list B)) blocks :
  concat (concat (map f blocks)) = concat (flat_map f blocks).
Proof. rewrite flat_map_concat_map. reflexivity. Qed.

Lemma flat_map_map {A B C} (f : B -> C) (g : A -> list B) l :
  flat_map (fun x => map f (g x)) l = map f (flat_map g l).
Proof. induction l as [|x t IH]; [reflexivity|]. cbn. rewrite map_app, IH. reflexivity. Qed.

Lemma zlen_flat_own z n blocks : zone_ok z n -> (forall b, In b blocks -> In b (z_cube z)) ->
  zlen (flat_map (own z n) blocks) = zlen blocks * n.
Proof.
  intros H. induction blocks as [|b t IH]; intro Hin; [reflexivity|]. cbn [flat_map].
  rewrite zlen_app, zlen_cons, IH, own_len by (auto || (try apply Hin; try (left; reflexivity)); intros; apply Hin; right; auto).
  lia.
Qed.

Lemma width_flat_own z n blocks : zone_ok z n -> (forall b, In b blocks -> In b (z_cube z)) ->
  width (z_shape2 z) (flat_map (own z n) blocks).
Proof.
  intros H Hin row Hr. apply in_flat_map in Hr. destruct Hr as [b [Hb Hr]].
  exact (own_width z n b H (Hin b Hb) row Hr).
Qed.

Lemma zlen_zone z n : zone_ok z n -> zlen (zone_times z n) = zlen (zone_rows z n).
Proof.
  intros H. unfold zone_times, zone_rows. rewrite zlen_progression.
  change (fun block => firstn (Z.to_nat n) (skipn (Z.to_nat (lead z n)) block)) with (own z n).
  rewrite (zlen_flat_own z n) by auto. pose proof (blocks_pos z n H). pose proof (zo_n z n H). nia.
Qed.

Lemma width_kept m kd labels rows : zlen labels = m -> width m rows ->
  width (zlen (filter kd labels)) (map (kept kd labels) rows).
Proof.
  intros L W row Hr. apply in_map_iff in Hr. destruct Hr as [r0 [<- Hr]].
  apply zlen_kept. rewrite L. symmetry. apply W; auto.
Qed.

Lemma kept_true {A} labels (xs : list A) : zlen labels = zlen xs -> kept (wanted None) labels xs = xs.
Proof. intro H. apply kept_all; [exact H|reflexivity]. Qed.

(** ** Reading without a time *)
Lemma read_zone_all z n dist : zone_ok z n ->
  exists out, read_zone z None dist = Ok out /\
              part_of (zone_times z n) (zone_dists z) (zone_rows z n) None dist out.
Proof.
  intros H. unfold read_zone, zone_data. rewrite (zone_time_ok z n H). cbn [bind].
  destruct (zone_dist_ok z n H) as [dc [Ed Hd]]. rewrite Ed, (zone_index_ok z n H). cbn [bind fst snd].
  destruct (select_even dc _ dist Hd) as [ds [Es [[Kv Kp] Kl]]]. rewrite Es. cbn [bind].
  rewrite (cube_index_ok z n _ _ (z_cube z) (wanted dist) H (full_index _) (fun b Hb => Hb) Kp).
  cbn [bind]. rewrite Kl.
  pose proof (zone_time_even z n H) as Ht.
  destruct (select_even _ _ None Ht) as [ts [Et [[Tv Tp] Tl]]]. cbn [select_opt] in Et. injection Et as <-.
  cbn [fst snd] in *.
  destruct (Z.eqb_spec (zlen (filter (wanted dist) (zone_dists z))) 0) as [Z0|Z0].
  - cbn [bind]. unfold g_size; cbn [g_rows g_cols]. rewrite Z.mul_0_r. cbn [Z.eqb].
    exists None; split; [reflexivity|]. right. apply zlen_zero; auto.
  - rewrite <- (zlen_dists z n H), Kp, zlen_positions_where.
    rewrite concat_blocks, (flat_map_map (kept (wanted dist) (zone_dists z)) (own z n)).
    rewrite reshape_concat.
    + cbn [bind]. eapply (finish (zone_times z n) (zone_dists z) (zone_rows z n) None dist).
      * apply zlen_zone; auto.
      * exact Tv.
      * exact Tl.
      * exact Kv.
      * exact Kl.
      * rewrite kept_true by (apply zlen_zone; auto). reflexivity.
    + pose proof (zlen_nonneg (filter (wanted dist) (zone_dists z))). lia.
    + apply (width_kept (z_shape2 z)); [apply (zlen_dists z n); auto|]. apply width_flat_own; auto.
Qed.
