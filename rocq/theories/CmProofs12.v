(** Lemmas behind CmProps.v: decimate and roll. *)
From Verif Require Import Base BaseFacts CoordModel CoordSpec CoordProofs CoordProofs2 CoordProofs3
  CoordProofs4 CoordProofs5 NdModel NdSpec NdProofs NdProofs2 FrameModel FrameProofs5 ChunkModel CmModel CmSpec
  CmProofs CmProofs2 CmProofs3 CmProofs4 CmProofs5 CmProofs8 CmProofs10.
From Coq Require Import Strings.String ZifyBool Sorting.Permutation Sorting.Sorted.
Ltac Zify.zify_post_hook ::= Z.div_mod_to_equations.
Local Open Scope Z_scope.
Local Open Scope list_scope.

Lemma every_kth n k : 0 <= n -> 0 < k ->
  slice_positions n (mkSlice None None (Some k)) = Some (map (fun i => i * k) (zrange ((n + k - 1) / k))).
Proof.
  intros N K. unfold slice_positions, slice_indices. cbn [sl_step sl_start sl_stop].
  replace (k =? 0) with false by lia. replace (k <? 0) with false by lia. cbv iota zeta.
  f_equal. replace (if 0 <? n then (n - 0 - 1) / k + 1 else 0) with ((n + k - 1) / k).
  - apply map_ext. intros; lia.
  - destruct (Z.ltb_spec 0 n).
    + replace (n + k - 1) with (n - 0 - 1 + 1 * k) by lia. apply Z.div_add. lia.
    + replace n with 0 by lia. apply Z.div_small. lia.
Qed.

(** A new coordinate for one dimension. *)
Lemma one_update cm d c c' : wf_cm cm -> plain_names cm -> In d (cm_dims cm) ->
  assoc d (cm_coords cm) = Some (M1 c) -> okc c' ->
  exists cm', cm_update cm [(d, KSimple (VCoord (M1 c')))] = Ok cm' /\ wf_cm cm' /\ cm_dims cm' = cm_dims cm /\
    assoc d (cm_coords cm') = Some (recf (M1 c')) /\
    (forall n, n <> d -> In d (dims_of cm n) -> c_len c <> c_len c' ->
       assoc n (cm_coords cm') = None /\ assoc n (cm_dmap cm') = None) /\
    (forall n, n <> d -> ~ (In d (dims_of cm n) /\ c_len c <> c_len c') ->
       assoc n (cm_coords cm') = option_map recf (assoc n (cm_coords cm))) /\
    (forall n, n = d \/ ~ (In d (dims_of cm n) /\ c_len c <> c_len c') -> assoc n (cm_dmap cm') = assoc n (cm_dmap cm)).
Proof.
  intros W PN I E K.
  set (newf := fun n => if String.eqb n d then Some (M1 c') else None).
  destruct (wf_dim_coord cm d W I) as (c0 & E0 & Wc & D). rewrite E in E0. injection E0 as <-.
  destruct (cm_update_sub cm [(d, KSimple (VCoord (M1 c')))] newf W PN) as (cm' & EU & W' & D' & U1 & U2 & U3).
  - split; [repeat constructor; intros []|]. intros n. cbn [assoc]. unfold newf. destruct (String.eqb_spec n d) as [->|]; [|reflexivity].
    exists (M1 c'), [d]. repeat split; auto.
  - intros n m _. unfold newf. destruct (String.eqb n d); [intros [= <-]; eauto|discriminate].
  - intros n m ds. unfold newf at 1. destruct (String.eqb_spec n d) as [->|]; [|discriminate]. intros [= <-] Dn _.
    rewrite D in Dn. injection Dn as <-. constructor; [|constructor]. exists c'. unfold latest, newf. rewrite String.eqb_refl. auto.
  - assert (RS : forall n, resized cm newf n <-> In d (dims_of cm n) /\ c_len c <> c_len c').
    { intros n. unfold resized, newf, dims_of. split.
      - intros (ds & d1 & c1 & c2 & Dn & J & Q & E1 & N). destruct (String.eqb_spec d1 d) as [->|]; [|discriminate].
        injection Q as <-. rewrite E in E1. injection E1 as <-. rewrite Dn. auto.
      - intros [J N]. destruct (assoc n (cm_dmap cm)) as [ds|] eqn:Dn; [|destruct J].
        exists ds, d, c, c'. rewrite String.eqb_refl. auto. }
    assert (Nf : forall n, n <> d -> newf n = None) by (intros n N; unfold newf; destruct (String.eqb_spec n d); [contradiction|reflexivity]).
    assert (Nd : newf d = Some (M1 c')) by (unfold newf; rewrite String.eqb_refl; reflexivity).
    exists cm'. split; [exact EU|]. split; [exact W'|]. split; [exact D'|].
    split; [apply (U1 d _ Nd)|]. split; [intros n N J L; apply U2; [apply Nf; exact N|apply RS; auto]|].
    split; [intros n N R; apply U3; [apply Nf; exact N|rewrite RS; exact R]|].
    intros n [->|R]; [apply (U1 d _ Nd)|].
    destruct (newf n) eqn:Q; [apply (U1 n _ Q)|]. apply (U3 n Q). rewrite RS. exact R.
Qed.

Lemma carried_self cm n m pick : wf_cm cm -> assoc n (cm_coords cm) = Some m ->
  (forall d, In d (dims_of cm n) -> pick d = pick0 cm d) ->
  carried m (recf m) (picks_of cm pick (own0 cm) n).
Proof.
  intros W E H. apply carried_recf; [apply wf_okm, (wf_vals _ W _ _ E)|].
  assert (picks_of cm pick (own0 cm) n = full (m_shape m)) as ->; [|apply carried_refl, (wf_vals _ W _ _ E)].
  rewrite <- (picks0 cm n m W E). unfold picks_of, dims_of in *. destruct (assoc n (cm_dmap cm)) as [[|d ds]|]; auto.
  apply map_ext_in. exact H.
Qed.

(** [p'] is [p] with one dimension restricted to positions [ps]; coordinates of
    that dimension may be gone. *)
Lemma pt_decimate_ok {A} (p : patch A) dim k c : wf_patch p -> plain_names (p_cm p) -> 0 < k ->
  In dim (cm_dims (p_cm p)) -> assoc dim (cm_coords (p_cm p)) = Some (M1 c) ->
  let ps := map (fun i => i * k) (zrange ((c_len c + k - 1) / k)) in
  let pick := fun d => if String.eqb d dim then ps else pick0 (p_cm p) d in
  exists p', pt_decimate p dim k = Ok p' /\ wf_patch p' /\ cm_dims (p_cm p') = cm_dims (p_cm p) /\
    nd_picked (p_data p) (p_data p') (map pick (cm_dims (p_cm p))) /\
    (forall n m, assoc n (cm_coords (p_cm p)) = Some m ->
       match assoc n (cm_coords (p_cm p')) with
       | Some m' => carried m m' (picks_of (p_cm p) pick (own0 (p_cm p)) n) /\
                    assoc n (cm_dmap (p_cm p')) = assoc n (cm_dmap (p_cm p))
       | None => n <> dim /\ In dim (dims_of (p_cm p) n)
       end) /\
    (forall n, assoc n (cm_coords (p_cm p)) = None -> assoc n (cm_coords (p_cm p')) = None).
Proof.
  intros WP PN K I E ps pick. destruct p as [cm a]. cbn [p_cm p_data] in *. pose proof (wp_cm _ WP) as W. cbn [p_cm] in W.
  pose proof (wf_vals _ W _ _ E) as Wc. cbn [wf_mcoord] in Wc. pose proof (c_len_nonneg c Wc) as NN.
  destruct (wf_dim_coord cm dim W I) as (c0 & E0 & _ & D). rewrite E in E0. injection E0 as <-.
  pose proof (every_kth (c_len c) k NN K) as SP. fold ps in SP.
  pose proof (getitem_carried c (IxSlice (mkSlice None None (Some k))) Wc) as GC.
  cbn [indexer_positions] in GC. rewrite SP in GC. destruct GC as (c' & G & Kc & Ca).
  destruct (one_update cm dim c c' W PN I E Kc) as (cm' & EU & W' & D' & U0 & U1 & U2 & U3).
  assert (Lc : dim_len cm dim (c_len c)) by (exists c; auto).
  assert (Len : c_len c' = zlen ps).
  { assert (carried (M1 c) (M1 c') [ps]) as CC by (exists c', ps; auto).
    pose proof (carried_shape (M1 c) (M1 c') _ Kc CC) as SH. cbn in SH. congruence. }
  (* nothing changes when the length does not *)
  assert (SAME : c_len c = c_len c' -> ps = zrange (c_len c)).
  { intros Q. rewrite Len in Q. unfold ps in *. rewrite zlen_map, zlen_zrange in Q.
    destruct (Z.eq_dec k 1) as [->|Nk].
    - rewrite (map_ext (fun i => i * 1) (fun i => i)) by (intros; lia). rewrite map_id.
      f_equal. replace (c_len c + 1 - 1) with (c_len c) by lia. apply Z.div_1_r.
    - assert (c_len c <= 1) as L1.
      { destruct (Z_le_gt_dec (c_len c) 1) as [|G1]; [assumption|exfalso].
        assert ((c_len c + k - 1) / k < c_len c); [|lia]. apply Z.div_lt_upper_bound; nia. }
      destruct (Z.eq_dec (c_len c) 0) as [->|N0].
      + rewrite Z.div_small by lia. reflexivity.
      + replace (c_len c) with 1 by lia. replace (1 + k - 1) with k by lia. rewrite Z.div_same by lia. reflexivity. }
  unfold pt_decimate, cm_decimate. cbn [p_cm p_data]. rewrite (proj2 (mem_In' _ _) I). cbn [negb].
  rewrite E, G. cbn [bind]. rewrite EU. cbn [bind fst snd]. rewrite D'.
  set (l := map (fun d => if String.eqb d dim then IxSlice (mkSlice None None (Some k)) else simple_slice None None) (cm_dims cm)).
  destruct (apply_indexers_spec a l (map pick (cm_dims cm)) (wp_nd _ WP)) as (b & Eb & Pb).
  { pose proof (wp_shape _ WP) as F. cbn [p_cm p_data] in F. unfold l. clear - F SP W Lc.
    induction F as [|d n ds s (c1 & E1 & L1) F IH]; cbn [map combine]; constructor; [|exact IH].
    cbn [fst snd]. unfold pick. destruct (String.eqb_spec d dim) as [->|N].
    - destruct Lc as (c2 & E2 & L2). assert (n = c_len c) as -> by congruence. exact SP.
    - rewrite (pick0_len cm d n) by (exists c1; auto). apply full_positions. rewrite <- L1.
      apply c_len_nonneg, (wf_vals _ W _ _ E1). }
  { unfold l. rewrite map_length. apply (Forall2_length _ _ _ (wp_shape _ WP)). }
  { rewrite map_length. apply (Forall2_length _ _ _ (wp_shape _ WP)). }
  rewrite Eb.
  assert (COORD : forall n m, assoc n (cm_coords cm) = Some m ->
       match assoc n (cm_coords cm') with
       | Some m' => carried m m' (picks_of cm pick (own0 cm) n) /\ assoc n (cm_dmap cm') = assoc n (cm_dmap cm)
       | None => n <> dim /\ In dim (dims_of cm n)
       end).
  { intros n m Em. destruct (string_dec n dim) as [->|N].
    - rewrite U0, U3 by auto. split; [|reflexivity]. rewrite E in Em. injection Em as <-.
      apply carried_recf; [exact Kc|]. unfold picks_of. rewrite D. cbn [map]. unfold pick. rewrite String.eqb_refl.
      exists c', ps. auto.
    - destruct (in_dec string_dec dim (dims_of cm n)) as [J|J].
      + destruct (Z.eq_dec (c_len c) (c_len c')) as [Q|Q].
        * assert (NR : ~ (In dim (dims_of cm n) /\ c_len c <> c_len c')) by tauto.
          rewrite (U2 n N NR), Em, U3 by auto. cbn [option_map]. split; [|reflexivity].
          apply carried_self; auto. intros d Jd. unfold pick. destruct (String.eqb_spec d dim) as [->|]; [|reflexivity].
          rewrite (SAME Q). symmetry. apply (pick0_len _ _ _ Lc).
        * rewrite (proj1 (U1 n N J Q)). auto.
      + assert (NR : ~ (In dim (dims_of cm n) /\ c_len c <> c_len c')) by tauto.
        rewrite (U2 n N NR), Em, U3 by auto. cbn [option_map]. split; [|reflexivity].
        apply carried_self; auto. intros d Jd. unfold pick. destruct (String.eqb_spec d dim) as [->|]; [contradiction|reflexivity]. }
  assert (WP' : wf_patch (mkPatch cm' b)).
  { split; cbn [p_cm p_data].
    - exact W'.
    - apply Pb.
    - rewrite D'. apply (wp_some _ WP).
    - rewrite D', (proj1 (proj2 Pb)).
      assert (Q : forall d, In d (cm_dims cm) -> dim_len cm' d (zlen (pick d))).
      { intros d J. destruct (wf_dim_coord cm d W J) as (c1 & E1 & W1 & D1).
        specialize (COORD d _ E1). destruct (assoc d (cm_coords cm')) as [m'|] eqn:Em'.
        - destruct COORD as [C _]. unfold picks_of in C. rewrite D1 in C. cbn [map] in C.
          pose proof (carried_shape _ _ _ (wf_okm _ (wf_vals _ W' _ _ Em')) C) as SH.
          destruct C as (c2 & q & -> & _ & _). exists c2. split; [exact Em'|]. cbn in SH. congruence.
        - destruct COORD as [N J']. unfold dims_of in J'. rewrite D1 in J'. destruct J' as [<-|[]]. congruence. }
      clear - Q. induction (cm_dims cm) as [|d ds IH]; cbn; constructor.
      + apply Q. left; reflexivity.
      + apply IH. intros; apply Q; right; assumption. }
  exists (mkPatch cm' b). cbn [p_cm p_data]. split; [apply new_patch_ok; apply WP'|].
  split; [exact WP'|]. split; [exact D'|]. split; [exact Pb|]. split; [exact COORD|].
  intros n En. assert (N : n <> dim) by congruence. rewrite (U2 n N); [rewrite En; reflexivity|].
  intros [J _]. unfold dims_of in J. destruct (assoc n (cm_dmap cm)) eqn:Dn; [|destruct J].
  destruct (con_coord _ (wf_con _ W) n l0 Dn) as (m & Em & _). congruence.
Qed.

(** ** Roll *)
Lemma roll_in_range n k p : In p (roll_positions n k) -> 0 <= p < n.
Proof.
  unfold roll_positions. intros H. apply in_map_iff in H as (i & <- & J). apply in_zrange in J.
  apply Z.mod_pos_bound. lia.
Qed.
Lemma roll_len n k : 0 <= n -> zlen (roll_positions n k) = n.
Proof. intros N. unfold roll_positions. rewrite zlen_map, zlen_zrange. lia. Qed.

Lemma index_of_some d l : In d l -> exists i, index_of d l = Some i /\ nth_error l i = Some d.
Proof.
  induction l as [|x t IH]; [intros []|]. intros J. cbn [index_of]. destruct (String.eqb_spec d x) as [->|N].
  - exists O. auto.
  - destruct J as [->|J]; [contradiction|]. destruct (IH J) as (i & -> & E). exists (S i). auto.
Qed.

Lemma put_map_upd {A} (f : string -> A) d v : forall l i, NoDup l -> nth_error l i = Some d ->
  put (map f l) i v = map (fun x => if String.eqb x d then v else f x) l.
Proof.
  induction l as [|x t IH]; intros [|i] ND E; try discriminate; cbn [map put].
  - injection E as ->. rewrite String.eqb_refl. f_equal. apply map_ext_in. intros y J.
    destruct (String.eqb_spec y d) as [->|]; [|reflexivity]. inversion ND; contradiction.
  - inversion ND as [|? ? NI ND']; subst. cbn [nth_error] in E.
    destruct (String.eqb_spec x d) as [->|]; [exfalso; apply NI; eapply nth_error_In; eauto|].
    f_equal. apply IH; auto.
Qed.

Lemma pt_roll_ok {A} (p : patch A) dim k r upd : wf_patch p -> plain_names (p_cm p) ->
  In dim (cm_dims (p_cm p)) -> assoc dim (cm_coords (p_cm p)) = Some (M1 (CRange r)) ->
  let ps := roll_positions (r_len r) k in
  let pick := fun d => if String.eqb d dim then ps else pick0 (p_cm p) d in
  exists p', pt_roll p dim k upd = Ok p' /\ wf_patch p' /\ cm_dims (p_cm p') = cm_dims (p_cm p) /\
    nd_picked (p_data p) (p_data p') (map pick (cm_dims (p_cm p))) /\
    (if upd then
      (exists c', assoc dim (cm_coords (p_cm p')) = Some (M1 c') /\ carried1 (CRange r) c' ps) /\
      (forall n, n <> dim -> assoc n (cm_coords (p_cm p')) = option_map recf (assoc n (cm_coords (p_cm p)))) /\
      (forall n, assoc n (cm_dmap (p_cm p')) = assoc n (cm_dmap (p_cm p)))
     else p_cm p' = p_cm p).
Proof.
  intros WP PN I E ps pick. destruct p as [cm a]. cbn [p_cm p_data] in *. pose proof (wp_cm _ WP) as W. cbn [p_cm] in W.
  pose proof (wf_vals _ W _ _ E) as Wc. cbn [wf_mcoord] in Wc. pose proof (c_len_nonneg _ Wc) as NN. cbn [c_len] in NN.
  destruct (wf_dim_coord cm dim W I) as (c0 & E0 & _ & D). rewrite E in E0. injection E0 as <-.
  assert (Lc : dim_len cm dim (r_len r)) by (exists (CRange r); auto).
  destruct (index_of_some dim (cm_dims cm) I) as (ax & Eax & Nax).
  assert (Sax : nth_error (nd_shape a) ax = Some (r_len r)).
  { pose proof (wp_shape _ WP) as F. cbn [p_cm p_data] in F. clear - F Nax Lc.
    revert ax Nax. induction F as [|d n ds s (c & Ec & L) F IH]; intros [|i] H; try discriminate; cbn in *.
    - injection H as ->. destruct Lc as (c2 & E2 & L2). congruence.
    - apply IH; exact H. }
  unfold pt_roll, get_axis. cbn [p_cm p_data]. rewrite Eax. cbn [bind]. rewrite Sax, E.
  assert (PR : forall q, In q ps -> 0 <= q < r_len r) by (intros q; apply roll_in_range).
  destruct (nd_take_picked a ax ps (r_len r) (wp_nd _ WP) Sax PR) as (b & Eb & Pb).
  fold ps. rewrite Eb.
  assert (PE : put (full (nd_shape a)) ax ps = map pick (cm_dims cm)).
  { unfold pick. rewrite <- (put_map_upd (pick0 cm) dim ps (cm_dims cm) ax) by (auto; apply (wf_dims _ W)). f_equal.
    pose proof (wp_shape _ WP) as F. cbn [p_cm p_data] in F. clear - F. unfold full.
    induction F as [|d n ds s H F IH]; cbn [map]; [reflexivity|]. rewrite (pick0_len _ _ _ H), IH. reflexivity. }
  rewrite PE in Pb.
  assert (SH : nd_shape b = nd_shape a).
  { rewrite (proj1 (proj2 Pb)), <- PE, put_map, map_zlen_full by apply (wp_nd _ WP). unfold ps. rewrite roll_len by exact NN.
    apply put_nth. exact Sax. }
  destruct upd.
  - destruct (gather_ok (c_ints (CRange r)) ps) as [v V].
    { intros q Q. rewrite c_ints_len; [apply PR; exact Q|apply wf_okc; exact Wc|exact Logic.I]. }
    cbn [c_len c_kind]. fold ps. rewrite V.
    destruct (get_coord_represents (r_kind r) v) as (c' & EG & R & W1). rewrite EG. cbn [bind].
    assert (L' : c_len c' = r_len r).
    { rewrite <- (c_len_values c' (wf_okc _ W1)), (proj1 R), (gather_some_len _ _ _ V). unfold ps. apply roll_len; exact NN. }
    destruct (one_update cm dim (CRange r) c' W PN I E (wf_okc _ W1)) as (cm' & EU & W' & D' & U0 & _ & U2 & U3).
    rewrite EU. cbn [bind].
    assert (NR : forall n, ~ (In dim (dims_of cm n) /\ c_len (CRange r) <> c_len c')) by (cbn [c_len]; intros n [_ Q]; lia).
    assert (WP' : wf_patch (mkPatch cm' b)).
    { split; cbn [p_cm p_data]; [exact W'|apply Pb|rewrite D'; apply (wp_some _ WP)|].
      rewrite D', SH. pose proof (wp_shape _ WP) as F. cbn [p_cm p_data] in F.
      eapply Forall2_impl_in; [|exact F]. intros d n J (c1 & E1 & L1). cbv beta in *.
      destruct (string_dec d dim) as [->|N].
      - destruct (recf_M1 c' (wf_okc _ W1)) as (c2 & Q2 & L2 & _). exists c2. rewrite U0, Q2. split; [reflexivity|].
        rewrite E in E1. injection E1 as <-. cbn [c_len] in L1. congruence.
      - destruct (recf_M1 c1 (wf_okc _ (wf_vals _ W _ _ E1))) as (c2 & Q2 & L2 & _). exists c2.
        rewrite U2, E1 by auto. cbn [option_map]. rewrite Q2. split; [reflexivity|congruence]. }
    exists (mkPatch cm' b). cbn [p_cm p_data]. split; [apply new_patch_ok; apply WP'|].
    split; [exact WP'|]. split; [exact D'|]. split; [exact Pb|]. split.
    + assert (carried (M1 (CRange r)) (M1 c') [ps]) as CC.
      { exists c', ps. split; [reflexivity|]. split; [reflexivity|]. exists v. auto. }
      apply carried_recf in CC; [|apply wf_okc; exact W1]. destruct CC as (c2 & q & Q2 & [= <-] & C2).
      exists c2. rewrite U0, Q2. auto.
    + split; [intros n N; apply U2; auto|]. intros n. apply U3. right. apply NR.
  - assert (WP' : wf_patch (mkPatch cm b)).
    { split; cbn [p_cm p_data]; [exact W|apply Pb|apply (wp_some _ WP)|rewrite SH; apply (wp_shape _ WP)]. }
    exists (mkPatch cm b). cbn [p_cm p_data]. split; [apply new_patch_ok; apply WP'|]. auto.
Qed.
