(** Lemmas behind ProcProps.v: rolling windows. *)
From Verif Require Import Base BaseFacts CoordModel CoordSpec CoordProofs CoordProofs2 CoordProofs3
  CoordProofs4 CoordProofs5 NdModel NdSpec NdProofs NdProofs2 NdProofs3 FrameModel FrameProofs5 ChunkModel ChunkProofs4 CmModel CmSpec
  CmProofs CmProofs2 CmProofs3 CmProofs4 CmProofs5 CmProofs8 CmProofs10 CmProofs12 CmProofs16 ProcModel ProcSpec ProcProofs ProcProofs2 ProcProofs3 ProcProofs4 ProcProofs5.
From Coq Require Import Strings.String ZifyBool.
Ltac Zify.zify_post_hook ::= Z.div_mod_to_equations.
Local Open Scope Z_scope.
Local Open Scope list_scope.

Definition window_at (n w st off k : Z) : option Z :=
  let last := k * st + off in if (w - 1 <=? last) && (last <? n) then Some (last - (w - 1)) else None.

Lemma pandas_windows_spec n w st center : 1 <= st ->
  pandas_windows n w st center = map (window_at n w st (label_offset EPandas center w st)) (zrange ((n + st - 1) / st)).
Proof.
  intros S. unfold pandas_windows. replace (ceil_div n st) with ((n + st - 1) / st) by (unfold ceil_div; nia).
  apply map_ext. intros k. unfold window_at, label_offset.
  destruct center; cbn zeta;
  match goal with |- (if ?a then _ else _) = (if ?b then _ else _) => replace b with a by lia; destruct a; [f_equal; lia|reflexivity] end.
Qed.

Lemma repeat_map {A} (x : A) n : repeat x (Z.to_nat n) = map (fun _ => x) (zrange n).
Proof.
  unfold zrange. rewrite map_map. generalize 0%nat. induction (Z.to_nat n) as [|m IH]; intros k; [reflexivity|].
  cbn [repeat seq map]. f_equal. apply IH.
Qed.

Lemma numpy_windows_spec n w st center : 1 <= w <= n -> 1 <= st ->
  numpy_windows n w st center = Ok (map (window_at n w st (label_offset ENumpy center w st)) (zrange ((n + st - 1) / st))).
Proof.
  intros Wn S. unfold numpy_windows. replace ((n <? w) || (w <? 0)) with false by lia.
  set (nn := 1 + (w - 2) / st). assert (NN : (nn - 1) * st <= w - 2 < nn * st) by (unfold nn; nia).
  assert (NN0 : 0 <= nn) by nia.
  assert (RS : roll_start w st = nn * st - (w - 1)).
  { unfold roll_start, ceil_div. f_equal. f_equal. nia. }
  unfold slice_positions, slice_indices. cbn [sl_step sl_start sl_stop].
  replace (st =? 0) with false by lia. replace (st <? 0) with false by lia. cbv iota zeta. rewrite RS.
  set (N := (n + st - 1) / st). assert (HN : (N - 1) * st < n <= N * st) by (unfold N; nia).
  assert (NLE : nn <= N) by nia.
  set (c0 := clip_index (n - w + 1) st (nn * st - (w - 1))).
  assert (C0 : c0 = Z.min (nn * st - (w - 1)) (n - w + 1)).
  { unfold c0, clip_index. replace (nn * st - (w - 1) <? 0) with false by lia. replace (st <? 0) with false by lia.
    cbv iota zeta. clear - NN Wn. replace (nn * st - (w - 1) <? 0) with false by lia.
    destruct (Z.leb_spec (n - w + 1) (nn * st - (w - 1))); lia. }
  assert (CNT : (if c0 <? n - w + 1 then (n - w + 1 - c0 - 1) / st + 1 else 0) = N - nn).
  { destruct (Z.ltb_spec c0 (n - w + 1)); [|nia]. replace c0 with (nn * st - (w - 1)) by lia.
    replace (n - w + 1 - (nn * st - (w - 1)) - 1) with (n - 1 + (- nn) * st) by lia. rewrite Z.div_add by lia.
    assert ((n - 1) / st = N - 1) by nia. lia. }
  rewrite CNT.
  assert (ST : map (fun k => c0 + k * st) (zrange (N - nn)) = map (fun k => nn * st - (w - 1) + k * st) (zrange (N - nn))).
  { apply map_zrange_ext. intros k K. rewrite C0. nia. }
  rewrite ST.
  assert (MAIN : forall lead, 0 <= lead <= nn -> label_offset ENumpy center w st = st * (nn - lead) ->
    repeat None (Z.to_nat lead) ++ map Some (map (fun k => nn * st - (w - 1) + k * st) (zrange (N - nn))) ++ repeat None (Z.to_nat (nn - lead)) =
    map (window_at n w st (label_offset ENumpy center w st)) (zrange N)).
  { intros lead LD ->. rewrite !repeat_map, map_map. replace N with (lead + ((N - nn) + (nn - lead))) at 2 by lia.
    rewrite zrange_app by lia. rewrite zrange_app by lia. rewrite !map_app, !map_map. f_equal; [|f_equal].
    - apply map_zrange_ext. intros k K. unfold window_at. cbn zeta.
      replace ((w - 1 <=? k * st + st * (nn - lead)) && (k * st + st * (nn - lead) <? n)) with false; [reflexivity|]. nia.
    - apply map_zrange_ext. intros k K. unfold window_at. cbn zeta.
      replace ((w - 1 <=? (lead + k) * st + st * (nn - lead)) && ((lead + k) * st + st * (nn - lead) <? n)) with true; [f_equal; lia|]. nia.
    - apply map_zrange_ext. intros k K. unfold window_at. cbn zeta.
      match goal with |- _ = if ?c then _ else _ => replace c with false; [reflexivity|] end. nia. }
  unfold label_offset in *.
  destruct (Z.eqb_spec nn 0) as [Z0|Z0].
  - f_equal. rewrite <- (MAIN 0).
    + rewrite Z0. cbn [Z.to_nat repeat app Z.sub]. rewrite app_nil_r. reflexivity.
    + lia.
    + destruct center; [|nia]. replace ((w - 2) / st + 1) with nn by (unfold nn; lia). rewrite Z0. reflexivity.
  - f_equal. rewrite <- (MAIN (if center then nn - nn / 2 else nn)).
    + reflexivity.
    + destruct center; nia.
    + destruct center; [|nia]. replace ((w - 2) / st + 1) with nn by (unfold nn; lia). f_equal. lia.
Qed.

(** ** Counting samples *)
Lemma count_of_ok r samples v k : wf_range r -> samples = true \/ 0 < r_step r -> counts r samples v k ->
  count_of r samples v = Ok k.
Proof.
  intros W S (L & H). unfold count_of. destruct samples.
  - destruct H as [-> _]. unfold sample_count_samples. replace (r_len r <? k) with false by lia. reflexivity.
  - destruct S as [S|S]; [discriminate|]. destruct H as (D & B).
    destruct (sample_count_spec r v true W S D) as (n & N & ->). assert (n = k) by nia. subst n.
    replace (r_len r <? k) with false by lia. reflexivity.
Qed.
Lemma counts_nonneg r samples v k : samples = true \/ 0 < r_step r -> counts r samples v k -> 0 <= v /\ 0 <= k.
Proof.
  intros S (L & H). destruct samples.
  - destruct H as [-> H]. auto.
  - destruct S as [S|S]; [discriminate|]. destruct H as (D & B). split; [exact D|nia].
Qed.

Lemma window_step_ok r samples win overlap step w st : wf_range r -> samples = true \/ 0 < r_step r ->
  asks r samples win overlap step w st -> 1 <= st ->
  window_step r samples win overlap step = Ok (w, match overlap, step with None, None => None | _, _ => Some st end).
Proof.
  intros W S (CW & H) ST. unfold window_step. rewrite (count_of_ok r samples win w W S CW).
  destruct overlap as [o|], step as [s|]; [contradiction|..]; cbn [bind].
  - destruct H as (k & Ck & ->). destruct (counts_nonneg _ _ _ _ S Ck) as [NO _].
    replace (o <? 0) with false by lia. rewrite (count_of_ok r samples o k W S Ck). cbn [bind].
    replace (w - k <=? 0) with false by lia. reflexivity.
  - destruct (counts_nonneg _ _ _ _ S H) as [NS _]. replace (s <? 0) with false by lia.
    rewrite (count_of_ok r samples s st W S H). cbn [bind]. replace (st <=? 0) with false by lia. reflexivity.
  - reflexivity.
Qed.

(** ** Windows of an array *)
Lemma nd_windows_ok {A} (a : nd A) ax n w st off N (f : list A -> A) nan : wf_nd a -> nth_error (nd_shape a) ax = Some n -> 1 <= w -> 0 <= N ->
  exists b, nd_windows a ax w (map (window_at n w st off) (zrange N)) f nan = Some b /\ wf_nd b /\
    nd_shape b = put (nd_shape a) ax N /\
    forall ix k, inb (nd_shape b) ix -> nth_error ix ax = Some k ->
      nd_get b ix = match window_at n w st off k with
                    | Some s => option_map f (traverse (fun i => nd_get a (put ix ax (s + i))) (zrange w))
                    | None => Some nan
                    end.
Proof.
  intros W NX W1 N0. unfold nd_windows. rewrite zlen_map, zlen_zrange. replace (Z.max 0 N) with N by lia.
  assert (PN : Forall (fun k => 0 <= k) (put (nd_shape a) ax N)) by (apply put_nonneg; [apply W|lia]).
  assert (AL : (ax < List.length (nd_shape a))%nat) by (apply nth_error_Some; congruence).
  match goal with |- context [nd_build ?s ?g] => set (F := g); destruct (nd_build_total s F PN) as [b B] end.
  - intros ix IB. pose proof (inb_length _ _ IB) as LL. rewrite put_length in LL. unfold F.
    destruct (nth_error ix ax) as [k|] eqn:Ek; [|apply nth_error_None in Ek; lia].
    assert (KN : 0 <= k < N).
    { pose proof (proj1 (inb_nth _ _) IB) as [_ Q]. apply (Q ax N k); [apply nth_put_same; exact AL|exact Ek]. }
    rewrite znth_map, znth_zrange. replace ((0 <=? k) && (k <? N)) with true by lia. cbn [option_map].
    unfold window_at. cbn zeta. destruct ((w - 1 <=? k * st + off) && (k * st + off <? n)) eqn:C; [|eauto].
    destruct (traverse_total (fun i => nd_get a (put ix ax (k * st + off - (w - 1) + i))) (zrange w)) as [vs ->]; [|cbn; eauto].
    intros i I. apply in_zrange in I. apply nd_get_total; [exact W|].
    apply (inb_put _ _ _ _ _ IB n NX). lia.
  - rewrite B. destruct (nd_build_spec _ _ _ PN B) as (SB & WB & GB). exists b. split; [reflexivity|]. split; [exact WB|]. split; [exact SB|].
    intros ix k IB Ek. rewrite SB in IB. destruct (GB ix IB) as (v & Fv & ->). rewrite <- Fv. unfold F. rewrite Ek.
    assert (KN : 0 <= k < N).
    { pose proof (proj1 (inb_nth _ _) IB) as [_ Q]. apply (Q ax N k); [apply nth_put_same; exact AL|exact Ek]. }
    rewrite znth_map, znth_zrange. replace ((0 <=? k) && (k <? N)) with true by lia. cbn [option_map].
    destruct (window_at n w st off k); reflexivity.
Qed.

Lemma refit_same {A} (p : patch A) dim c (b : nd A) : wf_patch p -> assoc dim (cm_coords (p_cm p)) = Some (M1 c) ->
  wf_nd b -> nd_shape b = nd_shape (p_data p) -> refit p (mkPatch (p_cm p) b) dim c c.
Proof.
  intros WP E WB SB. pose proof (wp_cm _ WP) as W. split; cbn [p_cm p_data]; auto.
  - split; cbn [p_cm p_data]; auto; [apply (wp_some _ WP)|]. rewrite SB. apply (wp_shape _ WP).
  - intros n m N Em. rewrite Em. split; [|reflexivity]. apply carried_refl, (wf_vals _ W _ _ Em).
Qed.

Lemma strided r st : wf_range r -> 1 <= st -> exists r', c_getitem (CRange r) (IxSlice (mkSlice None None (Some st))) = Ok (CRange r') /\
  wf_range r' /\ r_len r' = (r_len r + st - 1) / st /\
  c_values (CRange r') = map Some (progression (r_start r) (st * r_step r) ((r_len r + st - 1) / st)).
Proof.
  intros WR S. pose proof WR as (_ & L & _). pose proof (r_getitem_slice r (mkSlice None None (Some st)) WR) as H.
  rewrite (every_kth (r_len r) st) in H by lia. set (N := (r_len r + st - 1) / st) in *.
  assert (1 <= N) as N1 by (unfold N; nia). assert ((N - 1) * st < r_len r) as N2 by (unfold N; nia).
  destruct H as (c & G & (vs & GV & CV) & NE & _). destruct NE as (r' & -> & WR').
  { intros Q. apply (f_equal zlen) in Q. rewrite zlen_map, zlen_zrange in Q. change (zlen (@nil Z)) with 0 in Q. lia. }
  assert (VS : vs = progression (r_start r) (st * r_step r) N).
  { assert (Some vs = Some (progression (r_start r) (st * r_step r) N)); [|congruence]. rewrite <- GV.
    rewrite r_values_prog by exact WR. unfold progression at 2. clear - N1 N2 S L.
    assert (G : forall l, (forall i, In i l -> 0 <= i < N) ->
      gather (progression (r_start r) (r_step r) (r_len r)) (map (fun i => i * st) l) = Some (map (fun i => r_start r + i * (st * r_step r)) l)).
    { induction l as [|i t IH]; intros H; [reflexivity|]. cbn [map gather]. pose proof (H i (or_introl eq_refl)).
      rewrite znth_progression by nia. rewrite IH by (intros; apply H; right; assumption). do 2 f_equal. ring. }
    rewrite G; [reflexivity|]. intros i I. apply in_zrange in I. lia. }
  exists r'. split; [exact G|]. split; [exact WR'|]. rewrite CV, VS. split; [|reflexivity].
  pose proof (zlen_r_values r' WR') as ZL. rewrite <- ZL. assert (map Some (r_values r') = map Some vs) as Q by exact CV.
  apply (f_equal zlen) in Q. rewrite !zlen_map in Q. rewrite Q, VS, zlen_progression. lia.
Qed.

Lemma pt_rolling_ok {A} (p : patch A) dim r win overlap step center samples e (f : list A -> A) nan w st :
  wf_patch p -> plain_names (p_cm p) -> In dim (cm_dims (p_cm p)) -> assoc dim (cm_coords (p_cm p)) = Some (M1 (CRange r)) ->
  samples = true \/ 0 < r_step r -> asks r samples win overlap step w st -> 1 <= w -> 1 <= st ->
  let eng := get_engine e st (nd_shape (p_data p)) in
  roller_fits p eng ((r_len r + st - 1) / st) ->
  exists p' c', pt_rolling p dim win overlap step center samples e f nan = Ok p' /\
    rolled p p' dim r w st (label_offset eng center w st) f nan c'.
Proof.
  intros WP PN I E SS ASK W1 S1 eng FIT. pose proof (wp_cm _ WP) as W. pose proof (wf_vals _ W _ _ E) as WR. cbn in WR.
  pose proof WR as (_ & RL & _). set (N := (r_len r + st - 1) / st) in *. assert (N1 : 1 <= N) by (unfold N; nia).
  assert (WL : w <= r_len r) by (destruct ASK as ((? & _) & _); assumption).
  destruct (index_of_some dim _ I) as (ax & IX & NX). pose proof (axis_shape p dim _ ax WP E NX) as SX. cbn [c_len] in SX.
  set (off := label_offset eng center w st).
  destruct (nd_windows_ok (p_data p) ax (r_len r) w st off N f nan (wp_nd _ WP) SX W1 ltac:(lia)) as (b & EB & WB & SB & GB).
  assert (RP : repack eng (cm_dims (p_cm p)) b = b).
  { unfold repack. destruct eng; [reflexivity|]. destruct (cm_dims (p_cm p)) as [|d0 [|d1 t]] eqn:DD; [destruct I|..].
    - cbn in FIT. assert (LS : List.length (nd_shape (p_data p)) = 1%nat).
      { pose proof (Forall2_length _ _ _ (wp_shape _ WP)) as LL. rewrite DD in LL. cbn in LL. lia. }
      destruct (nd_shape (p_data p)) as [|n0 [|]]; try discriminate. destruct ax as [|ax]; [|destruct ax; discriminate].
      cbn [put] in SB. rewrite SB. cbn [filter]. replace (N =? 1) with false; [cbn [negb]; rewrite <- SB; destruct b; reflexivity|].
      rewrite DD in FIT. change (zlen [d0]) with 1 in FIT. lia.
    - reflexivity. }
  assert (WINS : (match eng with
                   | ENumpy => numpy_windows (r_len r) w st center
                   | EPandas => if 2 <? zlen (cm_dims (p_cm p)) then Err ParameterError
                                else if w <? 0 then Err ValueError
                                else Ok (pandas_windows (r_len r) w st center)
                   end) = Ok (map (window_at (r_len r) w st off) (zrange N))).
  { unfold off. destruct eng.
    - apply numpy_windows_spec; lia.
    - replace (2 <? zlen (cm_dims (p_cm p))) with false by (cbn in FIT; lia). replace (w <? 0) with false by lia.
      rewrite pandas_windows_spec by lia. reflexivity. }
  assert (RUN : forall cm', rolled_coords (p_cm p) dim (CRange r) st = Ok cm' ->
     pt_rolling p dim win overlap step center samples e f nan = Ok (mkPatch cm' b)).
  { intros cm' RC. unfold pt_rolling. rewrite IX, E, (window_step_ok r samples win overlap step w st WR SS ASK S1). cbn [bind fst snd].
    assert (ST : match match overlap, step with None, None => None | _, _ => Some st end with Some s => s | None => 1 end = st).
    { destruct ASK as [_ H]. destruct overlap, step; auto. }
    rewrite ST. replace ((w =? 0) || (st =? 0)) with false by lia. fold eng. rewrite WINS. cbn [bind]. rewrite EB, RC. cbn [bind].
    rewrite RP. reflexivity. }
  assert (DATA : forall cm', cm_dims cm' = cm_dims (p_cm p) -> Forall2 (dim_len cm') (cm_dims (p_cm p)) (nd_shape b) ->
    forall pos, in_patch (mkPatch cm' b) pos ->
      let last := pos dim * st + off in
      (w - 1 <= last < r_len r -> exists vs, zlen vs = w /\
         (forall i, 0 <= i < w -> znth vs i = data_at p (at_dim pos dim (last - (w - 1) + i)) /\ znth vs i <> None) /\
         data_at (mkPatch cm' b) pos = Some (f vs)) /\
      (last < w - 1 \/ r_len r <= last -> data_at (mkPatch cm' b) pos = Some nan)).
  { intros cm' D' F pos IP last. unfold in_patch in IP. cbn [p_cm] in IP. rewrite D' in IP.
    pose proof (within_inb _ _ _ _ F IP) as IB. unfold data_at at 2 3. cbn [p_cm p_data]. rewrite D'.
    assert (NP : nth_error (map pos (cm_dims (p_cm p))) ax = Some (pos dim)) by (rewrite nth_error_map, NX; reflexivity).
    rewrite (GB _ _ IB NP). unfold window_at. fold last. cbn zeta. split; intros H.
    - replace ((w - 1 <=? last) && (last <? r_len r)) with true by lia.
      assert (TT : forall i, In i (zrange w) -> exists v, nd_get (p_data p) (put (map pos (cm_dims (p_cm p))) ax (last - (w - 1) + i)) = Some v).
      { intros i J. apply in_zrange in J. apply nd_get_total; [apply (wp_nd _ WP)|].
        rewrite SB in IB. apply (inb_put _ _ _ _ _ IB (r_len r) SX). lia. }
      destruct (traverse_total _ _ TT) as [vs TV]. rewrite TV. exists vs.
      destruct (traverse_spec _ _ _ TV) as [LV GV]. rewrite zlen_zrange in LV. split; [lia|]. split; [|reflexivity].
      intros i Hi. assert (ZI : znth (zrange w) i = Some i) by (rewrite znth_zrange; replace ((0 <=? i) && (i <? w)) with true by lia; reflexivity).
      destruct (GV i i ZI) as (y & Y1 & Y2). rewrite Y2. split; [|discriminate]. unfold data_at. rewrite <- Y1.
      rewrite (at_dim_put p pos dim ax) by (auto; apply (wf_dims _ W)). reflexivity.
    - replace ((w - 1 <=? last) && (last <? r_len r)) with false by lia. reflexivity. }
  destruct (Z.eq_dec st 1) as [Q|Q].
  - assert (NN : N = r_len r) by (unfold N; rewrite Q; rewrite Z.div_1_r; lia).
    assert (SB' : nd_shape b = nd_shape (p_data p)) by (rewrite SB, NN; apply put_nth; exact SX).
    exists (mkPatch (p_cm p) b), (CRange r). split; [apply RUN; unfold rolled_coords; replace (st =? 1) with true by lia; reflexivity|].
    split.
    + apply refit_same; assumption.
    + fold N. rewrite NN, Q. cbn [c_values]. rewrite r_values_prog by exact WR. do 2 f_equal. lia.
    + apply DATA; [reflexivity|]. rewrite SB'. apply (wp_shape _ WP).
  - destruct (strided r st WR S1) as (r' & G & WR' & L' & V'). fold N in L', V'.
    destruct (resize_patch p dim (CRange r) (CRange r') ax b WP PN NX E WR' eq_refl WB) as (cm' & EU & NP & RF).
    { rewrite SB. cbn [c_len]. rewrite L'. reflexivity. }
    exists (mkPatch cm' b), (CRange r'). split.
    + apply RUN. unfold rolled_coords. replace (st =? 1) with false by lia. rewrite G. cbn [bind]. exact EU.
    + split; [exact RF|exact V'|]. apply DATA.
      * exact (rf_dims _ _ _ _ _ RF).
      * pose proof (wp_shape _ (rf_wf _ _ _ _ _ RF)) as F. pose proof (rf_dims _ _ _ _ _ RF) as D'. cbn [p_cm p_data] in *. rewrite D' in F. exact F.
Qed.
