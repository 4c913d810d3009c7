(** Facts behind ReadProps.v: the Febus reader with a time. *)
From Verif Require Import Base BaseFacts CoordModel CoordSpec CoordProofs CoordProofs2 CoordProofs3
  CoordProofs4 CoordProofs5 NdModel ReadModel ReadSpec ReadProofs ReadProofs2.
From Coq Require Import ZifyBool.
Ltac Zify.zify_post_hook ::= Z.div_mod_to_equations.

(** ** argmax and cumsum on a run of ones *)
Lemma first_at_spec m l : forall k i, znth l i = Some m -> (forall j, 0 <= j < i -> znth l j <> Some m) ->
  first_at m k l = k + i.
Proof.
  induction l as [|x t IH]; intros k i Hi Hj; [rewrite znth_nil in Hi; discriminate|]. cbn [first_at].
  rewrite znth_cons in Hi. destruct (Z.eqb_spec i 0).
  - injection Hi as ->. rewrite Z.eqb_refl. lia.
  - pose proof (znth_some _ _ _ Hi) as Hr.
    destruct (Z.eqb_spec x m).
    + exfalso. apply (Hj 0); [lia|]. rewrite znth_cons. cbn. congruence.
    + rewrite (IH (k + 1) (i - 1)); [lia|exact Hi|]. intros j Hjj E. apply (Hj (j + 1)); [lia|].
      rewrite znth_cons. destruct (Z.eqb_spec (j + 1) 0); [lia|].
      replace (j + 1 - 1) with j by lia. exact E.
Qed.

Lemma argmax_spec l i m : znth l i = Some m -> (forall x, In x l -> x <= m) ->
  (forall j, 0 <= j < i -> znth l j <> Some m) -> np_argmax l = Ok i.
Proof.
  intros Hi Hm Hj. unfold np_argmax.
  destruct (list_max_ok l) as [m' E]; [intros ->; rewrite znth_nil in Hi; discriminate|].
  rewrite E. pose proof (list_max_greatest l m' E) as [G1 G2].
  assert (m' = m) by (specialize (G2 m (znth_in _ _ _ Hi)); specialize (Hm m' G1); lia).
  subst m'. rewrite (first_at_spec m l 0 i Hi Hj). reflexivity.
Qed.

(** Entry [b] is one for [a <= b < c]. *)
Definition run (a c nb : Z) : list Z := map (fun b => if (a <=? b) && (b <? c) then 1 else 0) (zrange nb).

Lemma znth_run a c nb b : znth (run a c nb) b =
  if (0 <=? b) && (b <? nb) then Some (if (a <=? b) && (b <? c) then 1 else 0) else None.
Proof.
  unfold run. rewrite znth_map, znth_zrange. destruct ((0 <=? b) && (b <? nb)); reflexivity.
Qed.

Lemma cumsum_run a c nb : 0 <= a -> 0 <= nb -> forall acc,
  cumsum acc (run a c nb) = map (fun b => acc + Z.max 0 (Z.min (b + 1 - a) (c - a))) (zrange nb).
Proof.
  intros Ha Hnb.
  assert (G : forall l acc, cumsum acc l =
            map (fun b => acc + fold_right Z.add 0 (firstn (Z.to_nat (b + 1)) l)) (zrange (zlen l))).
  { induction l as [|x t IH]; intro acc; [reflexivity|]. cbn [cumsum].
    rewrite IH, (zrange_cons (zlen (x :: t))) by (rewrite zlen_cons; pose proof (zlen_nonneg t); lia).
    cbn [map]. f_equal; [change (Z.to_nat (0 + 1)) with 1%nat; cbn [firstn fold_right]; lia|]. rewrite map_map, zlen_cons. replace (1 + zlen t - 1) with (zlen t) by lia.
    apply map_ext_in. intros b Hb. apply in_zrange in Hb.
    replace (Z.to_nat (b + 1 + 1)) with (S (Z.to_nat (b + 1))) by lia. cbn [firstn fold_right]. lia. }
  intro acc. rewrite G. unfold run at 2. rewrite zlen_map, zlen_zrange. rewrite Z.max_r by lia.
  apply map_ext_in. intros b Hb. apply in_zrange in Hb. f_equal.
  assert (S : forall m, 0 <= m <= nb -> fold_right Z.add 0 (firstn (Z.to_nat m) (run a c nb)) =
              Z.max 0 (Z.min (m - a) (c - a))).
  { intros m Hm. assert (E : firstn (Z.to_nat m) (run a c nb) = run a c m).
    { apply znth_ext. intro i. rewrite znth_firstn, !znth_run.
      destruct (Z.ltb_spec i m), (Z.leb_spec 0 i), (Z.ltb_spec i nb), (Z.ltb_spec i m); cbn; try reflexivity; lia. }
    rewrite E. clear E. destruct Hm as [Hm _]. pattern m. apply natlike_ind; [| |exact Hm].
    - cbn. lia.
    - intros x Hx IH. unfold run in *. rewrite <- Z.add_1_r, zrange_succ by lia.
      rewrite map_app, fold_right_app. cbn [map fold_right].
      assert (Q : forall l k, fold_right Z.add k l = fold_right Z.add 0 l + k).
      { induction l as [|y l IHl]; intro k; cbn; [lia|]. rewrite IHl. lia. }
      rewrite Q, IH. destruct (Z.leb_spec a x), (Z.ltb_spec x c); cbn [andb]; lia. }
  rewrite S by lia. lia.
Qed.

Lemma argmax_run a c nb : 0 <= a -> a < c -> c <= nb -> np_argmax (run a c nb) = Ok a.
Proof.
  intros Ha Hac Hc. apply (argmax_spec _ a 1).
  - rewrite znth_run. destruct (Z.leb_spec 0 a), (Z.ltb_spec a nb), (Z.leb_spec a a), (Z.ltb_spec a c); cbn; try lia; reflexivity.
  - intros x Hx. apply in_map_iff in Hx. destruct Hx as [b [<- _]]. destruct ((a <=? b) && (b <? c)); lia.
  - intros j Hj E. rewrite znth_run in E.
    destruct (Z.leb_spec 0 j), (Z.ltb_spec j nb), (Z.leb_spec a j); cbn in E; try lia; try discriminate.
Qed.

Lemma argmax_cumsum_run a c nb : 0 <= a -> a < c -> c <= nb -> np_argmax (cumsum 0 (run a c nb)) = Ok (c - 1).
Proof.
  intros Ha Hac Hc. rewrite cumsum_run by lia. apply (argmax_spec _ (c - 1) (c - a)).
  - rewrite znth_map, znth_zrange. destruct (Z.leb_spec 0 (c - 1)), (Z.ltb_spec (c - 1) nb); cbn [andb option_map]; try lia.
    f_equal. lia.
  - intros x Hx. apply in_map_iff in Hx. destruct Hx as [b [<- _]]. lia.
  - intros j Hj. rewrite znth_map, znth_zrange.
    destruct (Z.leb_spec 0 j), (Z.ltb_spec j nb); cbn [andb option_map]; try lia.
    intro E. injection E as E. lia.
Qed.

Lemma argmax_none a c nb : 0 <= a -> c <= a -> 0 < nb -> np_argmax (run a c nb) = Ok 0 /\
  np_argmax (cumsum 0 (run a c nb)) = Ok 0.
Proof.
  intros Ha Hca Hnb. split.
  - apply (argmax_spec _ 0 0); [|..].
    + rewrite znth_run. destruct (Z.leb_spec 0 0), (Z.ltb_spec 0 nb), (Z.leb_spec a 0), (Z.ltb_spec 0 c); cbn; try lia; reflexivity.
    + intros x Hx. apply in_map_iff in Hx. destruct Hx as [b [<- _]].
      destruct (Z.leb_spec a b), (Z.ltb_spec b c); cbn; lia.
    + intros j Hj; lia.
  - rewrite cumsum_run by lia. apply (argmax_spec _ 0 0).
    + rewrite znth_map, znth_zrange. destruct (Z.leb_spec 0 0), (Z.ltb_spec 0 nb); cbn [andb option_map]; try lia.
      f_equal. lia.
    + intros x Hx. apply in_map_iff in Hx. destruct Hx as [b [<- _]]. lia.
    + intros j Hj; lia.
Qed.

(** ** Which blocks are in time *)
Lemma up_closed (P : Z -> bool) nb : 0 <= nb ->
  (forall b, 0 <= b -> b + 1 < nb -> P b = true -> P (b + 1) = true) ->
  exists a, 0 <= a <= nb /\ forall b, 0 <= b < nb -> P b = (a <=? b).
Proof.
  intros Hnb. pattern nb. apply natlike_ind; [|..|exact Hnb].
  - intros _. exists 0. split; [lia|intros; lia].
  - intros x Hx IH Hup. destruct IH as [a [Ha Hp]]; [intros b H1 H2; apply Hup; lia|].
    destruct (Z.eq_dec a x).
    + destruct (P x) eqn:E.
      * exists x. split; [lia|]. intros b Hb. destruct (Z.eq_dec b x) as [->|].
        -- rewrite E. symmetry. apply Z.leb_refl.
        -- rewrite Hp by lia. subst a. reflexivity.
      * exists (x + 1). split; [lia|]. intros b Hb. destruct (Z.eq_dec b x) as [->|].
        -- rewrite E. symmetry. apply Z.leb_gt. lia.
        -- rewrite Hp by lia. subst a. destruct (Z.leb_spec x b), (Z.leb_spec (x + 1) b); lia.
    + exists a. split; [lia|]. intros b Hb. destruct (Z.eq_dec b x) as [->|]; [|apply Hp; lia].
      assert (P (x - 1) = true) by (rewrite Hp by lia; apply Z.leb_le; lia).
      replace x with (x - 1 + 1) by lia. rewrite Hup by (lia || assumption).
      symmetry. apply Z.leb_le. lia.
Qed.

Lemma down_closed (Q : Z -> bool) nb : 0 <= nb ->
  (forall b, 0 <= b -> b + 1 < nb -> Q (b + 1) = true -> Q b = true) ->
  exists c, 0 <= c <= nb /\ forall b, 0 <= b < nb -> Q b = (b <? c).
Proof.
  intros Hnb Hd. destruct (up_closed (fun b => negb (Q b)) nb Hnb) as [c [Hc Hp]].
  - intros b H1 H2 E. destruct (Q (b + 1)) eqn:E1; [|reflexivity]. rewrite (Hd b H1 H2 E1) in E. discriminate.
  - exists c. split; [exact Hc|]. intros b Hb. specialize (Hp b Hb).
    destruct (Q b), (Z.leb_spec c b); cbn in Hp; try discriminate; lia.
Qed.

Section Blocks.
Context (s0 d nb : Z) (b : bounds).
Hypothesis Hd : 0 < d.
Hypothesis Hnb : 0 < nb.

(** Start and end of block [k] as the reader computes them. *)
Definition blk (k : Z) : Z * Z := (s0 + k * d, s0 + k * d + d).

Lemma in_time_run : exists a c, 0 <= a /\ c <= nb /\
  (forall k, 0 <= k < nb -> in_time b (blk k) = (a <=? k) && (k <? c)).
Proof.
  destruct (up_closed (fun k => negb (match fst b with Some t1 => snd (blk k) <? t1 | None => false end)) nb)
    as [a [Ha Pa]]; [lia| |].
  { intros k H1 H2. destruct (fst b) as [t1|]; [|auto]. unfold blk; cbn [fst snd].
    intro E. apply negb_true_iff, Z.ltb_ge in E. apply negb_true_iff, Z.ltb_ge. nia. }
  destruct (down_closed (fun k => negb (match snd b with Some t2 => t2 <? fst (blk k) | None => false end)) nb)
    as [c [Hc Pc]]; [lia| |].
  { intros k H1 H2. destruct (snd b) as [t2|]; [|auto]. unfold blk; cbn [fst snd].
    intro E. apply negb_true_iff, Z.ltb_ge in E. apply negb_true_iff, Z.ltb_ge. nia. }
  exists a, c. split; [lia|]. split; [lia|]. intros k Hk. unfold in_time. rewrite (Pa k Hk), (Pc k Hk). reflexivity.
Qed.
End Blocks.

(** ** Splitting the recording at block boundaries *)
Lemma skipn_skipn' {A} (l : list A) x y : skipn x (skipn y l) = skipn (x + y) l.
Proof. revert l; induction y as [|y IH]; intro l; [rewrite Nat.add_0_r; reflexivity|]. rewrite Nat.add_succ_r. destruct l; cbn; [destruct x; reflexivity|apply IH]. Qed.

Lemma progression_app s d x y : 0 <= x -> 0 <= y ->
  progression s d (x + y) = progression s d x ++ progression (s + x * d) d y.
Proof.
  intros Hx Hy. unfold progression. rewrite zrange_app, map_app, map_map by lia. f_equal.
  apply map_ext. intro; lia.
Qed.

Lemma kept_app {A} keep l1 l2 (x1 x2 : list A) : zlen l1 = zlen x1 ->
  kept keep (l1 ++ l2) (x1 ++ x2) = kept keep l1 x1 ++ kept keep l2 x2.
Proof.
  unfold kept; revert x1; induction l1 as [|l t IH]; intros [|x x1] H;
    rewrite ?zlen_cons, ?zlen_nil in H; try (pose proof (zlen_nonneg x1); lia);
    try (pose proof (zlen_nonneg t); lia); [reflexivity|].
  cbn. destruct (keep l); cbn; rewrite IH by lia; reflexivity.
Qed.

Lemma kept_none {A} keep labels (xs : list A) : (forall x, In x labels -> keep x = false) ->
  kept keep labels xs = [].
Proof.
  unfold kept; revert xs; induction labels as [|l t IH]; intros [|x xs] H; try reflexivity.
  cbn. rewrite (H l (or_introl eq_refl)). apply IH. intros; apply H; right; auto.
Qed.
Lemma filter_none {A} (p : A -> bool) l : (forall x, In x l -> p x = false) -> filter p l = [].
Proof. induction l as [|x t IH]; intro H; [reflexivity|]. cbn. rewrite (H x (or_introl eq_refl)). apply IH. intros; apply H; right; auto. Qed.

Lemma in_progression s d n x : In x (progression s d n) <-> exists i, 0 <= i < n /\ x = s + i * d.
Proof.
  unfold progression. rewrite in_map_iff. split.
  - intros [i [<- Hi]]. apply in_zrange in Hi. eauto.
  - intros [i [Hi ->]]. exists i. split; [reflexivity|]. apply in_zrange; auto.
Qed.

Section TimeRead.
Context (z : zone) (n : Z) (b : bounds).
Hypothesis Hz : zone_ok z n.
Hypothesis Hb : ordered b.

(** The labels the reader works with: one step late. *)
Definition late : list Z := map (fun t => t + z_step z) (zone_times z n).

Let nb := zlen (z_cube z).
Let s0 := z_origin z + lead z n * z_step z + z_step z.
Let dur := n * z_step z.

Lemma late_prog : late = progression s0 (z_step z) (nb * n).
Proof.
  unfold late, zone_times, progression. rewrite map_map. apply map_ext. intro i. unfold s0. lia.
Qed.

Lemma dur_pos : 0 < dur. Proof. unfold dur. pose proof (zo_n z n Hz). destruct (zo_step z n Hz) as [Hs _]. nia. Qed.
Lemma nb_pos : 0 < nb. Proof. unfold nb. pose proof (blocks_pos z n Hz). lia. Qed.

Lemma range_min : r_min (zone_range z n) = z_origin z + lead z n * z_step z.
Proof.
  pose proof (r_min_least (zone_range z n) (zone_range_wf z n Hz)) as [G1 G2].
  rewrite (r_values_prog _ (zone_range_wf z n Hz)) in G1, G2. cbn [zone_range r_start r_step r_len] in *.
  destruct (zo_step z n Hz) as [Hs _]. pose proof (zo_n z n Hz). pose proof nb_pos.
  apply in_progression in G1. destruct G1 as [i [Hi E]].
  assert (In (z_origin z + lead z n * z_step z) (progression (z_origin z + lead z n * z_step z) (z_step z) (zlen (z_cube z) * n))).
  { apply in_progression. exists 0. split; [fold nb; nia|lia]. }
  specialize (G2 _ H1). unfold zone_range in *. nia.
Qed.

Lemma block_times_ok : block_times (zone_range z n) n nb = map (blk s0 dur) (zrange nb).
Proof.
  unfold block_times. rewrite range_min. cbn [zone_range r_step]. apply map_ext. intro k.
  unfold blk, s0, dur. f_equal; lia.
Qed.

(** Blocks that are not in time have no wanted label. *)
Lemma outside k i : 0 <= k < nb -> 0 <= i < n -> in_time b (blk s0 dur k) = false ->
  wanted (Some b) (s0 + (k * n + i) * z_step z) = false.
Proof.
  intros Hk Hi E. destruct (zo_step z n Hz) as [Hs _]. unfold in_time, blk in E; cbn [fst snd] in E.
  unfold wanted. destruct b as [[lo|] [hi|]]; cbn [fst snd between ordered] in *; unfold dur in E; try discriminate.
  - apply andb_false_iff in E. rewrite !negb_false_iff, !Z.ltb_lt in E.
    apply andb_false_iff. rewrite !Z.leb_gt. destruct E; [left|right]; nia.
  - rewrite andb_true_r, negb_false_iff, Z.ltb_lt in E. apply Z.leb_gt. nia.
  - cbn [negb andb] in E. rewrite negb_false_iff, Z.ltb_lt in E. apply Z.leb_gt. nia.
Qed.

Lemma read_zone_time : exists out, read_zone z (Some b) None = Ok out /\
  part_of late (zone_dists z) (zone_rows z n) (Some b) None out.
Proof.
  pose proof nb_pos as Hnb. pose proof dur_pos as Hdur. pose proof (zo_n z n Hz) as Hn.
  destruct (zo_step z n Hz) as [Hs Hfair].
  destruct (in_time_run s0 dur nb b Hdur Hnb) as (a & c & Ha & Hc & Hrun).
  unfold read_zone, zone_data. rewrite (zone_time_ok z n Hz). cbn [bind].
  destruct (zone_dist_ok z n Hz) as [dc [Ed Hd]]. rewrite Ed, (zone_index_ok z n Hz). cbn [bind fst snd].
  destruct (select_even dc _ None Hd) as [ds [Es [[Kv Kp] Kl]]]. rewrite Es. cbn [bind].
  unfold time_filtered. replace (lead z n + n - 1 - lead z n + 1) with n by lia.
  fold nb. rewrite block_times_ok.
  assert (Em : map (fun m : bool => if m then 1 else 0) (map (in_time b) (map (blk s0 dur) (zrange nb))) = run a c nb).
  { rewrite !map_map. unfold run. apply map_ext_in. intros k Hk. apply in_zrange in Hk. rewrite Hrun by exact Hk. reflexivity. }
  rewrite Em. clear Em. cbv zeta.
  assert (Ef : forall k, In k (filter (fun k => in_time b (blk s0 dur k)) (zrange nb)) <-> a <= k < c /\ k < nb).
  { intro k. rewrite filter_In, in_zrange. split.
    - intros [H1 H2]. rewrite Hrun in H2 by exact H1. lia.
    - intros H. assert (0 <= k < nb) by lia. split; [auto|]. rewrite Hrun by auto. lia. }
  assert (Eft : filter (in_time b) (map (blk s0 dur) (zrange nb)) =
                map (blk s0 dur) (filter (fun k => in_time b (blk s0 dur k)) (zrange nb))).
  { generalize (zrange nb). induction l as [|x t IH]; [reflexivity|]. cbn. destruct (in_time b (blk s0 dur x)); cbn; congruence. }
  rewrite Eft. rewrite zlen_map.
  assert (Lrows : zlen late = zlen (zone_rows z n)).
  { unfold late. rewrite zlen_map. apply zlen_zone; auto. }
  assert (Hwd : width (z_shape2 z) (zone_rows z n)).
  { apply (width_flat_own z n (z_cube z)); auto. }
  assert (Kid : forall rows, width (z_shape2 z) rows -> map (kept (wanted None) (zone_dists z)) rows = rows).
  { intros rows W. rewrite <- (map_id rows) at 2. apply map_ext_in. intros row Hr. apply kept_true.
    rewrite (zlen_dists z n Hz). symmetry. apply W; auto. }
  assert (Fd : filter (wanted None) (zone_dists z) = zone_dists z).
  { generalize (zone_dists z). induction l; cbn; congruence. }
  destruct (Z_lt_le_dec a c) as [Hac|Hca].
  - (* some blocks *)
    rewrite argmax_run, argmax_cumsum_run by lia. cbn [bind].
    set (fl := filter (fun k => in_time b (blk s0 dur k)) (zrange nb)) in *.
    assert (Hfa : In a fl) by (apply Ef; lia). assert (Hfc : In (c - 1) fl) by (apply Ef; lia).
    destruct (Z.eqb_spec (zlen fl) 0) as [Z0|_].
    { apply zlen_zero in Z0. rewrite Z0 in Hfa. destruct Hfa. }
    replace (c - 1 + 1) with c by lia.
    set (mid := firstn (Z.to_nat (c - a)) (skipn (Z.to_nat a) (z_cube z))).
    assert (Hmid : forall x, In x mid -> In x (z_cube z)).
    { intros x Hx. unfold mid in Hx. apply In_firstn in Hx. apply In_skipn in Hx. exact Hx. }
    rewrite (cube_index_ok z n (simple_slice (Some a) (Some c)) (snd ds) mid (wanted None) Hz);
      [|apply slice_index; fold nb; lia|exact Hmid|exact Kp].
    cbn [bind]. rewrite concat_blocks, (flat_map_map (kept (wanted None) (zone_dists z)) (own z n)).
    rewrite Kid by (apply width_flat_own; auto).
    rewrite reshape_concat; [|pose proof (zo_cols z n Hz); lia|apply width_flat_own; auto].
    cbn [bind]. unfold g_size at 1; cbn [g_rows g_cols].
    assert (Lmid : zlen mid = c - a).
    { unfold mid. rewrite zlen_firstn, zlen_skipn by lia. fold nb. lia. }
    rewrite (zlen_flat_own z n mid Hz Hmid), Lmid.
    pose proof (zo_cols z n Hz) as Hcols.
    assert (Hcn : 1 <= (c - a) * n) by nia.
    assert (Hcs : 1 <= (c - a) * n * z_shape2 z) by (generalize dependent ((c - a) * n); intros; nia).
    destruct (Z.eqb_spec ((c - a) * n * z_shape2 z) 0) as [Z0|_]; [exfalso; lia|].
    assert (Emin : list_min (map fst (map (blk s0 dur) fl)) = Some (s0 + a * dur)).
    { destruct (list_min_ok (map fst (map (blk s0 dur) fl))) as [m Em].
      { intro E0. destruct fl; [destruct Hfa|discriminate]. }
      rewrite Em. f_equal. eapply least_unique; [apply list_min_least; exact Em|]. split.
      - rewrite map_map. apply in_map_iff. exists a. split; [reflexivity|exact Hfa].
      - intros x Hx. rewrite map_map in Hx. apply in_map_iff in Hx. destruct Hx as [k [<- Hk]].
        apply Ef in Hk. unfold blk; cbn [fst]. nia. }
    assert (Emax : list_max (map snd (map (blk s0 dur) fl)) = Some (s0 + a * dur + z_step z * ((c - a) * n))).
    { destruct (list_max_ok (map snd (map (blk s0 dur) fl))) as [m Em].
      { intro E0. destruct fl; [destruct Hfa|discriminate]. }
      rewrite Em. f_equal. eapply greatest_unique; [apply list_max_greatest; exact Em|]. split.
      - rewrite map_map. apply in_map_iff. exists (c - 1). split; [|exact Hfc].
        unfold blk; cbn [snd]. unfold dur. lia.
      - intros x Hx. rewrite map_map in Hx. apply in_map_iff in Hx. destruct Hx as [k [<- Hk]].
        apply Ef in Hk. unfold blk; cbn [snd]. unfold dur. nia. }
    rewrite Emin, Emax. cbn [zone_range r_step].
    rewrite mk_range_exact by nia. cbn [bind].
    rewrite change_length_same by (cbn [r_len]; lia).
    cbn [bind].
    set (rr := mkRange KTime (s0 + a * dur) (s0 + a * dur + z_step z * ((c - a) * n)) (z_step z) ((c - a) * n)).
    assert (Wr : wf_range rr) by (unfold wf_range, rr; cbn; repeat split; nia).
    set (tm := progression (s0 + a * dur) (z_step z) ((c - a) * n)).
    assert (Hev : even_coord (CRange rr) tm).
    { exists rr. split; [reflexivity|]. split; [exact Wr|]. split; [exact Hfair|]. rewrite r_values_prog by exact Wr. reflexivity. }
    destruct (select_even (CRange rr) tm (Some b) Hev) as [ts [Et [[Tv Tp] Tl]]].
    assert (Et' : c_select (CRange rr) false (fst b) (snd b) = Ok ts) by (rewrite (surjective_pairing b) in Et; exact Et).
    rewrite Et'. cbn [bind].
    assert (Ltm : zlen tm = zlen (flat_map (own z n) mid)).
    { unfold tm. rewrite zlen_progression, (zlen_flat_own z n mid Hz Hmid), Lmid. nia. }
    unfold np_index. rewrite <- Ltm, Tp, gather_kept by exact Ltm. cbn [bind fst snd].
    assert (Ecube : z_cube z = firstn (Z.to_nat a) (z_cube z) ++ mid ++ skipn (Z.to_nat c) (z_cube z)).
    { unfold mid. rewrite <- (firstn_skipn (Z.to_nat a) (z_cube z)) at 1. f_equal.
      rewrite <- (firstn_skipn (Z.to_nat (c - a)) (skipn (Z.to_nat a) (z_cube z))) at 1. f_equal.
      rewrite skipn_skipn'. f_equal. lia. }
    assert (Elate : late = progression s0 (z_step z) (a * n) ++ tm ++ progression (s0 + c * dur) (z_step z) ((nb - c) * n)).
    { rewrite late_prog. replace (nb * n) with (a * n + ((c - a) * n + (nb - c) * n)) by lia.
      rewrite progression_app by nia. f_equal. rewrite progression_app by nia. unfold tm, dur. f_equal; f_equal; lia. }
    assert (N1 : forall x, In x (progression s0 (z_step z) (a * n)) -> wanted (Some b) x = false).
    { intros x Hx. apply in_progression in Hx. destruct Hx as [i [Hi ->]].
      replace i with (i / n * n + i mod n) by (pose proof (Z.div_mod i n); lia).
      apply outside; [split; [apply Z.div_pos; lia|assert (i / n < a) by (apply Z.div_lt_upper_bound; lia); lia]|apply Z.mod_pos_bound; lia|].
      assert (0 <= i / n < a) by (split; [apply Z.div_pos; lia|apply Z.div_lt_upper_bound; lia]).
      rewrite Hrun by lia. destruct (Z.leb_spec a (i / n)); [lia|reflexivity]. }
    assert (N2 : forall x, In x (progression (s0 + c * dur) (z_step z) ((nb - c) * n)) -> wanted (Some b) x = false).
    { intros x Hx. apply in_progression in Hx. destruct Hx as [i [Hi ->]].
      assert (0 <= i / n < nb - c) by (split; [apply Z.div_pos; lia|apply Z.div_lt_upper_bound; lia]).
      replace (s0 + c * dur + i * z_step z) with (s0 + ((c + i / n) * n + i mod n) * z_step z).
      2:{ unfold dur. pose proof (Z.div_mod i n). nia. }
      apply outside; [lia|apply Z.mod_pos_bound; lia|]. rewrite Hrun by lia.
      destruct (Z.ltb_spec (c + i / n) c); [lia|]. apply andb_false_r. }
    assert (Efil : filter (wanted (Some b)) late = filter (wanted (Some b)) tm).
    { rewrite Elate, !filter_app, (filter_none _ _ N1), (filter_none _ _ N2), app_nil_r. reflexivity. }
    assert (Ekept : kept (wanted (Some b)) late (zone_rows z n) = kept (wanted (Some b)) tm (flat_map (own z n) mid)).
    { rewrite Elate. unfold zone_rows.
      change (fun block => firstn (Z.to_nat n) (skipn (Z.to_nat (lead z n)) block)) with (own z n).
      rewrite Ecube at 1. rewrite !flat_map_app, !kept_app.
      - rewrite (kept_none _ _ _ N1), (kept_none _ _ _ N2), app_nil_r. reflexivity.
      - exact Ltm.
      - rewrite zlen_progression, (zlen_flat_own z n), zlen_firstn by (auto || (try lia); intros x Hx; apply In_firstn in Hx; exact Hx).
        fold nb. nia. }
    apply (finish late (zone_dists z) (zone_rows z n) (Some b) None).
    + exact Lrows.
    + rewrite Efil. exact Tv.
    + rewrite Efil. exact Tl.
    + exact Kv.
    + exact Kl.
    + rewrite Fd, (zlen_dists z n Hz), Ekept, Kid; [reflexivity|].
      intros row Hr. apply kept_In in Hr. revert row Hr. apply width_flat_own; auto.
  - (* no block *)
    destruct (argmax_none a c nb Ha Hca Hnb) as [E1 E2]. rewrite E1, E2. cbn [bind].
    set (fl := filter (fun k => in_time b (blk s0 dur k)) (zrange nb)) in *.
    assert (Hfl : fl = []).
    { destruct fl as [|k t]; [reflexivity|]. assert (a <= k < c /\ k < nb) by (apply Ef; left; auto). lia. }
    rewrite Hfl. cbn [zlen length Z.of_nat Z.eqb]. rewrite Z.add_0_r.
    rewrite (cube_index_ok z n (simple_slice (Some 0) (Some 0)) (snd ds) [] (wanted None) Hz);
      [|rewrite slice_index by (fold nb; lia); reflexivity|intros x []|exact Kp].
    cbn [bind map concat]. unfold reshape_rows. destruct (Z.leb_spec (z_shape2 z) 0); [pose proof (zo_cols z n Hz); lia|].
    rewrite (@zlen_nil Z), Z.mod_0_l, Z.div_0_l by lia. cbn.
    exists None. split; [reflexivity|]. left. apply filter_none. intros x Hx. rewrite late_prog in Hx.
    apply in_progression in Hx. destruct Hx as [i [Hi ->]].
    assert (0 <= i / n < nb) by (split; [apply Z.div_pos; lia|apply Z.div_lt_upper_bound; lia]).
    replace i with (i / n * n + i mod n) by (pose proof (Z.div_mod i n); lia).
    apply outside; [lia|apply Z.mod_pos_bound; lia|]. rewrite Hrun by lia.
    destruct (Z.leb_spec a (i / n)), (Z.ltb_spec (i / n) c); cbn; try reflexivity; lia.
Qed.
End TimeRead.
