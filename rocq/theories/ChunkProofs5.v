(** Proofs about chunking, part 5: for one group key the groups found by the
    code are mergeable, so every output patch carries the right data. *)
From Verif Require Import Base BaseFacts CoordModel CoordSpec CoordProofs CoordProofs2 CoordProofs3 CoordProofs5
  ChunkModel ChunkSpec ChunkProofs ChunkProofs2 ChunkProofs3 ChunkProofs4.
From Coq Require Import ZifyBool Sorting.Permutation Sorting.Sorted Lia ZArith.
Ltac Zify.zify_post_hook ::= Z.div_mod_to_equations.

Definition block (y : Z) (nums : list Z) (rows : list seg) : list seg :=
  map snd (filter (fun p => y =? fst p) (combine nums rows)).

Lemma block_none y nums rows : (forall z, In z nums -> y <> z) -> block y nums rows = [].
Proof.
  intros H. unfold block. rewrite filter_none; auto. intros [z r] Hp. apply in_combine_l in Hp.
  apply Z.eqb_neq. cbn. auto.
Qed.
Lemma cumsum_in_ge k l z : In z (cumsum k l) -> k <= z.
Proof. intros H. destruct (in_znth _ _ H) as (i & Hi). eapply cumsum_ge; eauto. Qed.

Lemma block_contig base s num den : 0 < s -> 0 < den -> num < 2 * den -> forall rows prev k y,
  Forall (grid_seg base s) (prev :: rows) -> staggered (prev :: rows) ->
  let nums := cumsum k (gap_flags num den (Some (g_max prev)) rows) in
  contiguous s (block y nums rows) /\ (y = k -> contiguous s (prev :: block y nums rows)).
Proof.
  intros Hs Hd Hn. induction rows as [|r t IH]; intros prev k y F S nums.
  - unfold nums. cbn. auto.
  - inversion F as [|? ? Gp F1]; subst. inversion F1 as [|? ? Gr F2]; subst.
    destruct S as [[S1 S2] S3]. unfold nums. cbn [gap_flags cumsum].
    replace (Z.max (g_max prev) (g_max r)) with (g_max r) by lia.
    set (fl := too_far num den (g_min r - g_max prev) (g_step r)).
    set (k' := if fl then k + 1 else k).
    destruct (IH r k' y F1 S3) as [C1 C2]. set (nums' := cumsum k' _) in *.
    unfold block. cbn [combine filter fst]. destruct (Z.eqb_spec y k') as [E|E]; cbn [map snd].
    + fold (block y nums' t). specialize (C2 E). split; auto. intros Ey.
      assert (FF : fl = false). { unfold k' in E. destruct fl; auto; lia. }
      cbn [contiguous]. split; auto. destruct Gp as (_ & G1 & G2 & _), Gr as (ST & G3 & _ & _).
      unfold fl, too_far in FF. rewrite ST in FF. destruct (Z.ltb_spec (num * s) (den * (g_min r - g_max prev))) as [|LE]; [discriminate|].
      assert (DV : (s | g_min r - g_max prev)).
      { replace (g_min r - g_max prev) with ((g_min r - base) - (g_max prev - base)) by lia. now apply Z.divide_sub_r. }
      destruct DV as [q Q]. rewrite Q in LE. assert (q < 2) by nia. nia.
    + fold (block y nums' t). split; auto. intros Ey.
      assert (k' = k + 1) by (unfold k' in *; destruct fl; lia).
      rewrite block_none; [cbn; auto|]. intros z Hz. apply cumsum_in_ge in Hz. lia.
Qed.
Lemma block_contig_all base s num den rows y : 0 < s -> 0 < den -> num < 2 * den ->
  Forall (grid_seg base s) rows -> staggered rows ->
  contiguous s (block y (cumsum 0 (gap_flags num den None rows)) rows).
Proof.
  intros Hs Hd Hn F S. destruct rows as [|r t]; [cbn; auto|]. cbn [gap_flags cumsum].
  destruct (block_contig base s num den Hs Hd Hn t r 0 y F S) as [C1 C2].
  unfold block in *. cbn [combine filter fst]. destruct (Z.eqb_spec y 0); cbn [map snd]; auto.
Qed.

(** ** Sublists of staggered rows are staggered *)
Definition before (a b : seg) : Prop := g_min a < g_min b /\ g_max a < g_max b.
Lemma staggered_strong rows : staggered rows <-> StronglySorted before rows.
Proof.
  induction rows as [|r t IH]; cbn [staggered]; [split; auto; constructor|]. rewrite IH. split.
  - intros [H S]. constructor; auto. destruct t as [|r' t]; [constructor|]. inversion S as [|? ? _ F]; subst.
    constructor; [exact H|]. rewrite Forall_forall in *. intros x Hx. specialize (F x Hx). unfold before in *. lia.
  - intros S. inversion S as [|? ? S' F]; subst. split; auto. destruct t; auto. now inversion F.
Qed.
Lemma staggered_block y nums : forall rows, staggered rows -> staggered (block y nums rows).
Proof.
  intros rows S. apply staggered_strong in S. apply staggered_strong. revert nums. induction S as [|r t S IH F]; intros nums.
  - destruct nums; constructor.
  - destruct nums as [|z nums]; [constructor|]. unfold block. cbn [combine filter fst]. destruct (y =? z); cbn [map snd].
    + constructor; [apply IH|]. rewrite Forall_forall in *. intros x Hx. apply F.
      apply in_map_iff in Hx as ([z' x'] & <- & Hx). apply filter_In in Hx as [Hx _]. now apply in_combine_r in Hx.
    + apply IH.
Qed.
Lemma Forall_block P y nums rows : Forall P rows -> Forall P (block y nums rows).
Proof.
  intros F. rewrite Forall_forall in *. intros x Hx. apply F. unfold block in Hx.
  apply in_map_iff in Hx as ([z' x'] & <- & Hx). apply filter_In in Hx as [Hx _]. now apply in_combine_r in Hx.
Qed.

Lemma filter_Permutation {A} (p : A -> bool) a b : Permutation a b -> Permutation (filter p a) (filter p b).
Proof.
  induction 1; cbn; auto.
  - destruct (p x); auto.
  - destruct (p x), (p y); auto. apply perm_swap.
  - etransitivity; eauto.
Qed.

Lemma groups_good argsort c base s key rows : valid_argsort argsort -> 0 < s -> 0 < c_tol_den c ->
  c_tol_num c < 2 * c_tol_den c ->
  Forall (grid_seg base s) rows -> (forall r, In r rows -> g_key r = key) ->
  (exists ordered, Permutation ordered rows /\ staggered ordered) ->
  forall lab, In lab (group_labels argsort c rows) ->
    good_group s (rows_with lab (group_labels argsort c rows) rows).
Proof.
  intros V Hs Hd Hn F K (ordered & P & S) lab Hlab.
  set (steps := map g_step rows).
  assert (AS : forall x, In x steps -> x = Some s).
  { intros x Hx. apply in_map_iff in Hx as (r & <- & Hr). rewrite Forall_forall in F. now destruct (F r Hr). }
  assert (PS : positive_steps steps). { intros x Hx. apply AS in Hx. injection Hx as <-. auto. }
  destruct (labels_spec argsort c rows V Hd PS) as [LL LS]. set (labels := group_labels argsort c rows) in *.
  destruct (V (map g_min rows)) as [PA _]. rewrite zlen_map in PA. set (args := argsort (map g_min rows)) in *.
  pose proof (take_rows_staggered argsort rows ordered V P S) as TR. fold args in TR.
  assert (LA : zlen args = zlen rows).
  { unfold zlen. rewrite (Permutation_length PA).
    change (zlen (zrange (zlen rows)) = zlen rows). rewrite zlen_zrange. pose proof (zlen_nonneg rows); lia. }
  assert (LO : zlen ordered = zlen rows) by (unfold zlen; now rewrite (Permutation_length P)).
  set (nums := cumsum 0 (gap_flags (c_tol_num c) (c_tol_den c) None ordered)).
  assert (LNU : zlen nums = zlen rows) by (unfold nums; now rewrite zlen_cumsum, zlen_gap_flags).
  destruct (unsort_spec args nums (zlen rows) PA ltac:(lia) (zlen_nonneg _)) as [U1 U2].
  assert (CG : continuity_groups argsort (c_tol_num c) (c_tol_den c) rows = unsort args nums).
  { unfold continuity_groups. fold args. rewrite TR. reflexivity. }
  (* all sampling groups are the same *)
  assert (SG : forall p q x y, znth (sampling_groups argsort steps) p = Some x ->
             znth (sampling_groups argsort steps) q = Some y -> x = y).
  { destruct (sampling_spec argsort steps V PS) as (L1 & sorted & G & Ps & Q).
    set (sargs := argsort (null_last steps)) in *.
    destruct (V (null_last steps)) as [PX _]. unfold null_last in PX at 2. rewrite zlen_map in PX. fold sargs in PX.
    assert (NJ : forall k, ~ step_jump sorted k).
    { intros k (a & b & _ & Ha & Hb & J). apply znth_in in Ha, Hb.
      apply (Permutation_in _ Ps) in Ha, Hb. apply AS in Ha, Hb.
      assert (a = s) by congruence. assert (b = s) by congruence. lia. }
    assert (pos : forall p x, znth (sampling_groups argsort steps) p = Some x -> exists i, znth sargs i = Some p /\ 0 <= i).
    { intros p x Hp. apply znth_some in Hp. rewrite L1 in Hp.
      assert (In p sargs) as HI by (eapply Permutation_in; [symmetry; exact PX|now apply in_zrange]).
      destruct (in_znth _ _ HI) as (i & Hi). exists i. split; auto. now apply znth_some in Hi. }
    intros p q x y Hp Hq. destruct (pos _ _ Hp) as (i & Hi & Bi), (pos _ _ Hq) as (j & Hj & Bj).
    destruct (Z_le_gt_dec i j).
    - apply (Q i j p q x y ltac:(lia) Hi Hj Hp Hq). auto.
    - symmetry. apply (Q j i q p y x ltac:(lia) Hj Hi Hq Hp). auto. }
  destruct (in_znth _ _ Hlab) as (i0 & Hi0). pose proof (znth_some _ _ _ Hi0) as B0. rewrite LL in B0.
  destruct (proj2 (znth_range rows i0) B0) as [r0 Hr0].
  destruct (LS _ _ Hr0) as (x0 & y0 & Hx0 & Hy0 & Hl0). rewrite Hl0 in Hi0. injection Hi0 as El.
  (* pairs in sorted order *)
  assert (GP : gather (combine labels rows) args = Some (combine (map (fun z => (x0, key, z)) nums) ordered)).
  { destruct (gather_ok (combine labels rows) args) as [w Hw].
    { intros i Hi. apply (Permutation_in _ PA) in Hi. apply in_zrange in Hi. rewrite zlen_combine. lia. }
    rewrite Hw. f_equal. apply znth_ext. intros j. rewrite (gather_znth _ _ _ Hw), znth_combine, znth_map.
    destruct (znth args j) as [p|] eqn:Ep.
    - assert (Bj := znth_some _ _ _ Ep). assert (Bp : 0 <= p < zlen rows).
      { apply in_zrange. eapply Permutation_in; [exact PA|eapply znth_in; eauto]. }
      destruct (proj2 (znth_range rows p) Bp) as [r Hr]. destruct (LS _ _ Hr) as (x1 & y1 & Hx1 & Hy1 & Hl1).
      rewrite znth_combine, Hl1, Hr. rewrite CG, (U2 _ _ Ep) in Hy1. rewrite Hy1. cbn [option_map].
      assert (EO : znth ordered j = Some r).
      { unfold take_rows in TR. destruct (gather rows args) as [o|] eqn:G'; [|].
        - subst o. rewrite (gather_znth _ _ _ G'), Ep. exact Hr.
        - destruct (gather_ok rows args) as [o Ho]; [|congruence].
          intros i Hi. apply (Permutation_in _ PA) in Hi. now apply in_zrange in Hi. }
      rewrite EO. rewrite (SG _ _ _ _ Hx1 Hx0). rewrite (K r) by (eapply znth_in; eauto). reflexivity.
    - apply znth_none in Ep. destruct (znth nums j) eqn:En; auto. apply znth_some in En. lia. }
  assert (PP : Permutation (combine (map (fun z => (x0, key, z)) nums) ordered) (combine labels rows)).
  { eapply gather_Permutation; [exact PA|exact GP|].
    replace (zlen rows) with (zlen (combine labels rows)) by (rewrite zlen_combine; lia). apply gather_zrange. }
  assert (RW : Permutation (block y0 nums ordered) (rows_with lab labels rows)).
  { unfold rows_with. rewrite <- (Permutation_map snd (filter_Permutation _ _ _ PP)).
    rewrite <- El. assert (KE : g_key r0 = key) by (apply K; eapply znth_in; eauto). rewrite KE.
    unfold block. clearbody nums. clear. revert ordered. induction nums as [|z nums IH]; intros [|o ordered]; cbn; auto.
    rewrite !Z.eqb_refl. cbn. destruct (y0 =? z); cbn; auto. }
  assert (FO : Forall (grid_seg base s) ordered) by (eapply Permutation_Forall; [symmetry; exact P|auto]).
  split; auto. exists base, (block y0 nums ordered). split; auto. split; [now apply Forall_block|].
  split; [now apply staggered_block|]. eapply block_contig_all; eauto.
Qed.
