(** Lemmas behind AggProps.v: putting the outcome of a numpy function back together. *)
From Verif Require Import Base BaseFacts CoordModel CoordSpec CoordProofs CoordProofs2 NdModel NdSpec NdProofs NdProofs2 FrameModel FrameProofs5 ChunkModel
  CmModel CmSpec CmProofs CmProofs2 CmProofs3 CmProofs10 CmProofs12 CmProofs19 MergeModel MergeProofs7 ConcatSpec AggModel AggSpec AggProofs AggProofs2.
From Coq Require Import Strings.String ZifyBool Lia.
Local Open Scope Z_scope.
Local Open Scope list_scope.

Fixpoint ones (ms : list bool) (s : list Z) : list Z :=
  match ms, s with
  | b :: ms', n :: s' => (if b : bool then 1 else n) :: ones ms' s'
  | _, _ => []
  end.
Lemma reexpand_ok ms : forall s, List.length ms = List.length s -> reexpand ms (unmarked ms s) = Ok (ones ms s).
Proof.
  induction ms as [|[] ms IH]; intros [|n s] L; cbn [List.length] in L; try lia; cbn [reexpand unmarked ones]; [reflexivity| |]; rewrite IH by lia; reflexivity.
Qed.
Lemma size_ones ms : forall s, List.length ms = List.length s -> size (ones ms s) = size (unmarked ms s).
Proof.
  induction ms as [|[] ms IH]; intros [|n s] L; cbn [List.length] in L; try lia; cbn [ones unmarked]; rewrite ?size_cons, ?IH by lia; lia || reflexivity.
Qed.
Lemma ravel_ones ms : forall s ix, List.length ms = List.length s -> inb (ones ms s) ix -> ravel (ones ms s) ix = ravel (unmarked ms s) (unmarked ms ix).
Proof.
  induction ms as [|b ms IH]; intros [|n s] ix L H; cbn [List.length] in L; try lia; cbn [ones] in H; inversion H as [|? i ? jx I H1]; subst; [reflexivity|].
  destruct b; cbn [ones unmarked ravel].
  - rewrite (IH s jx) by (lia || assumption). cbn in I. replace ((0 <=? i) && (i <? 1)) with true by lia. cbv beta iota. destruct (ravel _ _); [|reflexivity]. f_equal. assert (i = 0) as -> by lia. lia.
  - rewrite (IH s jx) by (lia || assumption). rewrite size_ones by lia. reflexivity.
Qed.
Lemma Forall_ones ms s : Forall (fun n => 0 <= n) s -> Forall (fun n => 0 <= n) (ones ms s).
Proof. intros H. revert ms. induction H as [|n s P F IH]; intros [|b ms]; cbn [ones]; constructor; auto. destruct b; lia. Qed.

Lemma assoc_tab {B} (g : string -> B) names n : assoc n (map (fun d => (d, g d)) names) = if mem n names then Some (g n) else None.
Proof.
  induction names as [|d l IH]; [reflexivity|]. cbn [map assoc]. unfold mem in *. cbn [existsb]. destruct (String.eqb_spec n d) as [->|]; [reflexivity|exact IH].
Qed.

Lemma marks_at axes n k : (k < n)%nat -> nth_error (marks axes n) k = Some (existsb (Nat.eqb k) axes).
Proof. intros L. unfold marks. rewrite nth_error_map, (nth_error_nth' _ O), seq_nth by (rewrite ?seq_length; exact L). reflexivity. Qed.
Lemma axes_mem axes k : existsb (Nat.eqb k) axes = true <-> In k axes.
Proof. rewrite existsb_exists. split; [intros (x & I & E); apply Nat.eqb_eq in E; subst; exact I|intros I; exists k; split; [exact I|apply Nat.eqb_refl]]. Qed.

Lemma ones_dims (P : string -> Z -> Prop) l : forall s E,
  (forall k d n (m : bool), nth_error E k = Some d -> nth_error s k = Some n -> nth_error l k = Some m -> P d (if m then 1 else n)) ->
  List.length s = List.length E -> List.length l = List.length s -> Forall2 P E (ones l s).
Proof.
  induction l as [|m l IH]; intros s E G L1 L2; destruct s as [|n s], E as [|d E]; cbn [List.length] in *; try lia; cbn [ones]; constructor.
  - apply (G O d n m); reflexivity.
  - apply IH; [|lia|lia]. intros k. apply (G (S k)).
Qed.

Section Put.
Context {A : Type} (p : patch A) (r : nd A) (axis : option (list Z)).
Hypothesis W : wf_patch p.
Hypothesis PN : plain_names (p_cm p).
Let D := cm_dims (p_cm p).
Let sh := nd_shape (p_data p).
Let axes := normal_axes axis (List.length D).
Let ms := marks axes (List.length D).
Hypothesis Wr : wf_nd r.
Hypothesis Sr : nd_shape r = unmarked ms sh.
Hypothesis Ne : nd_shape r <> sh.

Lemma axes_lt k : In k axes -> (k < List.length D)%nat.
Proof.
  unfold axes, normal_axes. pose proof (wp_some _ W) as NE. fold D in NE. destruct axis as [l|].
  - rewrite <- in_rev, nodup_In, <- in_rev, in_map_iff. intros (a & <- & _). destruct D as [|d D']; [congruence|]. cbn [List.length].
    pose proof (Z.mod_pos_bound a (Z.of_nat (S (List.length D'))) ltac:(lia)). lia.
  - rewrite in_seq. lia.
Qed.
Lemma axes_nodup : NoDup axes.
Proof. unfold axes, normal_axes. destruct axis; [apply NoDup_rev, NoDup_nodup|apply seq_NoDup]. Qed.
Definition name_at (k : nat) : string := nth k D EmptyString.
Let names := map name_at axes.
Lemma name_at_ok k : In k axes -> nth_error D k = Some (name_at k).
Proof. intros I. apply nth_error_nth', axes_lt, I. Qed.
Lemma names_in d : In d names <-> marked axes D d.
Proof.
  unfold names, marked. rewrite in_map_iff. split.
  - intros (k & <- & I). exists k. split; [exact I|apply name_at_ok, I].
  - intros (k & I & E). exists k. split; [|exact I]. rewrite (name_at_ok k I) in E. congruence.
Qed.
Lemma names_dims d : In d names -> In d D.
Proof. intros I. apply names_in in I as (k & _ & E). eapply nth_error_In; exact E. Qed.
Lemma names_nodup : NoDup names.
Proof.
  pose proof axes_nodup as ND. pose proof (wf_dims _ (wp_cm _ W)) as N2. fold D in N2. assert (L := axes_lt). unfold names. revert ND L. generalize axes as l.
  induction l as [|k l IH]; intros ND L; [constructor|]. apply NoDup_cons_iff in ND as [NI ND]. cbn [map]. constructor; [|apply IH; [exact ND|intros; apply L; right; assumption]].
  intros I. apply in_map_iff in I as (j & E & J). apply NI. replace k with j; [exact J|].
  unfold name_at in E. eapply (proj1 (NoDup_nth D EmptyString) N2); [apply L; right; exact J|apply L; left; reflexivity|exact E].
Qed.
Definition red (d : string) : coord :=
  match assoc d (cm_coords (p_cm p)) with Some (M1 c) => if c_len c =? 1 then c else CPart 1 | _ => CPart 1 end.
Lemma red_len d : c_len (red d) = 1.
Proof. unfold red. destruct (assoc d (cm_coords (p_cm p))) as [[c| |]|]; try reflexivity. destruct (c_len c =? 1) eqn:E; [lia|reflexivity]. Qed.
Lemma red_ok d : okc (red d).
Proof.
  unfold red. destruct (assoc d (cm_coords (p_cm p))) as [[c| |]|] eqn:E; try (cbn; lia). destruct (c_len c =? 1); [|cbn; lia].
  apply wf_okc. exact (wf_vals _ (wp_cm _ W) _ _ E).
Qed.
Let kw := map (fun d => (d, KSimple (VCoord (M1 (red d))))) names.
Let newf n := if mem n names then Some (M1 (red n)) else None.
Lemma kw_made : map_result (fun d => do c <- dim_coord d (p_cm p); do nc <- reduce_coord c HEmpty;
    match nc with Some c' => Ok (d, KSimple (VCoord (M1 c'))) | None => Err Unmodelled end) names = Ok kw.
Proof.
  apply map_result_map. intros d I. apply names_dims in I. destruct (wf_dim_coord _ d (wp_cm _ W) I) as (c & E & _). unfold dim_coord, red. rewrite E. reflexivity.
Qed.
Lemma kw_gives : gives (p_cm p) kw newf.
Proof.
  split; [unfold kw; rewrite map_map; cbn [fst]; rewrite map_id; exact names_nodup|]. intros n. unfold kw. rewrite (assoc_tab (fun d => KSimple (VCoord (M1 (red d))))).
  unfold newf. destruct (mem n names) eqn:M; [|reflexivity]. apply mem_In', names_dims in M.
  destruct (wf_dim_coord _ n (wp_cm _ W) M) as (c & E & _ & Dn). exists (M1 (red n)), [n]. split; [reflexivity|]. split; [apply red_ok|]. split; [exact Dn|]. right. auto.
Qed.
Lemma shape_len : List.length sh = List.length D.
Proof. symmetry. apply (Forall2_length _ _ _ (wp_shape _ W)). Qed.
Lemma ms_len : List.length ms = List.length sh.
Proof. unfold ms, marks. rewrite map_length, seq_length, shape_len. reflexivity. Qed.

Lemma put_back : exists out, reassemble r (Some axis) p = Ok out /\ relabelled axes r p out.
Proof.
  pose proof (wp_cm _ W) as Wc.
  destruct (cm_update_sub (p_cm p) kw newf Wc PN kw_gives) as (cm & EU & W' & D' & U1 & U2 & U3).
  - intros d m _. unfold newf. destruct (mem d names); [intros [= <-]; eauto|discriminate].
  - intros n m ds. unfold newf at 1. destruct (mem n names) eqn:M; [|discriminate]. intros [= <-] Dn _. pose proof M as M'. apply mem_In', names_dims in M'.
    destruct (wf_dim_coord _ n Wc M') as (c & _ & _ & Dn'). rewrite Dn in Dn'. injection Dn' as ->. constructor; [|constructor].
    exists (red n). unfold latest, newf. rewrite M. auto.
  - assert (RS : forall n, resized (p_cm p) newf n <-> exists d, In d (dims_of (p_cm p) n) /\ marked axes D d /\ length_of d p <> 1).
    { intros n. unfold resized, newf, dims_of. split.
      - intros (ds & d & c & c' & Dn & J & Q & E1 & N). destruct (mem d names) eqn:M; [|discriminate]. injection Q as <-. exists d. rewrite Dn. split; [exact J|].
        split; [apply names_in, mem_In', M|]. unfold length_of. rewrite E1. rewrite red_len in N. exact N.
      - intros (d & J & M & N). destruct (assoc n (cm_dmap (p_cm p))) as [ds|] eqn:Dn; [|destruct J]. apply names_in in M. pose proof (names_dims d M) as Id.
        destruct (wf_dim_coord _ d Wc Id) as (c & E & _). exists ds, d, c, (red d). rewrite (proj2 (mem_In' _ _) M). repeat split; auto. rewrite red_len. unfold length_of in N. rewrite E in N. exact N. }
    set (b := mkNd (ones ms sh) (nd_flat r)).
    assert (SB : Forall2 (dim_len cm) (cm_dims cm) (nd_shape b)).
    { rewrite D'. cbn [nd_shape b]. assert (G : forall k d n m, nth_error D k = Some d -> nth_error sh k = Some n -> nth_error ms k = Some m -> dim_len cm d (if m then 1 else n)).
      { intros k d n m Ek En Em. assert (Lk : (k < List.length D)%nat) by (apply nth_error_Some; congruence).
        unfold ms in Em. rewrite (marks_at axes _ k Lk) in Em. injection Em as <-.
        destruct (shape_at D p k d W eq_refl Ek) as (c & Ec & Ec2). fold sh in Ec2. rewrite En in Ec2. injection Ec2 as ->.
        assert (MK : existsb (Nat.eqb k) axes = mem d names).
        { apply Bool.eq_iff_eq_true. rewrite axes_mem, mem_In', names_in. split; [intros I; exists k; auto|]. intros (j & I & Ej).
          replace k with j; [exact I|]. eapply (proj1 (NoDup_nth_error D) (wf_dims _ Wc)); [apply nth_error_Some; congruence|congruence]. }
        rewrite MK. destruct (mem d names) eqn:M.
        - destruct (U1 d (M1 (red d))) as [Q _]; [unfold newf; rewrite M; reflexivity|]. destruct (recf_M1 (red d) (red_ok d)) as (c2 & R1 & R2 & _).
          exists c2. rewrite Q, R1. split; [reflexivity|]. rewrite R2. apply red_len.
        - assert (NR : ~ resized (p_cm p) newf d).
          { rewrite RS. intros (e & J & Me & _). destruct (wf_dim_coord _ d Wc (nth_error_In _ _ Ek)) as (? & _ & _ & Dd). unfold dims_of in J. rewrite Dd in J.
            destruct J as [<-|[]]. apply names_in, mem_In' in Me. congruence. }
          destruct (U3 d) as [Q _]; [unfold newf; rewrite M; reflexivity|exact NR|]. destruct (recf_M1 c) as (c2 & R1 & R2 & _); [apply wf_okc; exact (wf_vals _ Wc _ _ Ec)|].
          exists c2. rewrite Q, Ec. cbn [option_map]. rewrite R1. auto. }
      apply (ones_dims _ ms sh D G); [apply shape_len|apply ms_len]. }
    assert (NN : cm_dims cm <> []) by (rewrite D'; apply (wp_some _ W)).
    assert (Wb : wf_nd b).
    { split; cbn [nd_shape nd_flat b]; [apply Forall_ones, (proj1 (wp_nd _ W))|]. rewrite size_ones by apply ms_len. rewrite <- Sr. apply (proj2 Wr). }
    assert (KP : forall n m, assoc n (cm_coords (p_cm p)) = Some m -> newf n = None -> ~ resized (p_cm p) newf n -> keeps p (mkPatch cm b) n).
    { intros n m Em Nn NR. destruct (U3 n Nn NR) as [Q1 Q2]. exists m, (recf m). cbn [p_cm]. rewrite Q1, Q2, Em. pose proof (wf_vals _ Wc _ _ Em) as Wm.
      split; [reflexivity|]. split; [reflexivity|]. split; [|reflexivity]. apply carried_recf; [apply wf_okm, Wm|apply carried_refl, Wm]. }
    exists (mkPatch cm b). split.
    + unfold reassemble. fold sh. destruct (zlist_eqb (nd_shape r) sh) eqn:Q; [apply CmProofs.zlist_eqb_eq in Q; contradiction|]. fold D axes ms.
      rewrite Sr, (reexpand_ok ms sh ms_len). cbn [bind].
      rewrite (map_result_map _ name_at axes); [cbn [bind]|intros k I; rewrite (name_at_ok k I); reflexivity]. fold names. rewrite kw_made. cbn [bind]. rewrite EU. cbn [bind].
      unfold new_patch. fold b. rewrite (shape_of cm (nd_shape b) W' NN SB). cbn [bind]. rewrite (proj2 (CmProofs.zlist_eqb_eq _ _) eq_refl). reflexivity.
    + split; cbn [p_cm p_data].
      * split; cbn [p_cm p_data]; assumption.
      * exact D'.
      * rewrite D' in SB. eapply Forall2_impl_in; [|exact SB]. cbv beta. intros d n I (c & E & L) M. apply names_in in M.
        destruct (U1 d (M1 (red d))) as [Q _]; [unfold newf; rewrite (proj2 (mem_In' _ _) M); reflexivity|]. destruct (recf_M1 (red d) (red_ok d)) as (c2 & R1 & R2 & _).
        rewrite Q, R1 in E. injection E as <-. rewrite <- L, R2. apply red_len.
      * intros ix I. unfold nd_get. cbn [nd_shape nd_flat b] in *. rewrite (ravel_ones ms sh ix ms_len I), Sr. unfold ms at 2, marks. fold sh. rewrite shape_len. reflexivity.
      * intros d c M E. apply names_in in M. destruct (U1 d (M1 (red d))) as [Q _]; [unfold newf; rewrite (proj2 (mem_In' _ _) M); reflexivity|].
        destruct (recf_M1 (red d) (red_ok d)) as (c2 & R1 & R2 & _). exists c2. rewrite Q, R1. split; [reflexivity|]. unfold red in R1. rewrite E in R1.
        pose proof (wf_vals _ Wc _ _ E) as Wm. destruct (c_len c =? 1) eqn:L; [left|right].
        -- split; [lia|]. rewrite <- R1. replace (full [1]) with (full (m_shape (M1 c))) by (cbn [m_shape]; replace (c_len c) with 1 by lia; reflexivity).
           apply carried_recf; [apply wf_okm; exact Wm|apply carried_refl; exact Wm].
        -- split; [lia|]. cbn in R1. congruence.
      * intros n m Em H. destruct (newf n) as [m'|] eqn:Nn.
        -- unfold newf in Nn. destruct (mem n names) eqn:M; [|discriminate]. injection Nn as <-. pose proof M as M1'. apply mem_In' in M1'. pose proof (names_dims n M1') as In_.
           destruct (wf_dim_coord _ n Wc In_) as (c & Ec & _ & Dn). rewrite Em in Ec. injection Ec as ->.
           assert (L1 : c_len c = 1).
           { assert (length_of n p = 1) as Q; [|unfold length_of in Q; rewrite Em in Q; exact Q]. apply H; [unfold dims_of; rewrite Dn; left; reflexivity|apply names_in, M1']. }
           destruct (U1 n (M1 (red n))) as [Q1 Q2]; [unfold newf; rewrite M; reflexivity|]. exists (M1 c), (recf (M1 c)). cbn [p_cm].
           assert (red n = c) as R0 by (unfold red; rewrite Em, L1; reflexivity). rewrite Q1, Q2, R0. pose proof (wf_vals _ Wc _ _ Em) as Wm.
           split; [exact Em|]. split; [reflexivity|]. split; [|reflexivity]. apply carried_recf; [apply wf_okm, Wm|apply carried_refl, Wm].
        -- apply (KP n m Em Nn). rewrite RS. intros (d & J & M & L). apply L, H; assumption.
      * intros n d Nm J M L. split; cbn [p_cm].
        -- apply (U2 n); [unfold newf; destruct (mem n names) eqn:Q; [apply mem_In', names_in in Q; contradiction|reflexivity]|]. apply RS. exists d. auto.
        -- apply (U2 n); [unfold newf; destruct (mem n names) eqn:Q; [apply mem_In', names_in in Q; contradiction|reflexivity]|]. apply RS. exists d. auto.
      * intros n En. assert (Nn : newf n = None).
        { unfold newf. destruct (mem n names) eqn:Q; [|reflexivity]. apply mem_In', names_dims in Q. destruct (wf_dim_coord _ n Wc Q) as (c & Ec & _). congruence. }
        assert (Dn : assoc n (cm_dmap (p_cm p)) = None).
        { destruct (assoc n (cm_dmap (p_cm p))) as [ds|] eqn:Ed; [|reflexivity]. destruct (con_coord _ (wf_con _ Wc) n ds Ed) as (m & Em & _). congruence. }
        destruct (U3 n Nn) as [Q1 Q2]; [rewrite RS; intros (d & J & _); unfold dims_of in J; rewrite Dn in J; destruct J|].
        split; cbn [p_cm]; [rewrite Q1, En; reflexivity|congruence].
Qed.
End Put.
