(** Lemmas behind MoveProps.v: moving windows (C81). *)
From Verif Require Import Base BaseFacts CoordModel NdModel NdSpec NdProofs FrameModel ChunkModel
  CmModel TaperProofs2 ReadProofs MuteModel CalcModel CalcProofs MoveModel MoveSpec MoveProofs.
From Coq Require Import Strings.String ZifyBool QArith Qabs Lqa Sorting.Permutation Sorting.Sorted.
Local Open Scope Z_scope.
Local Open Scope list_scope.

Lemma wf_nth {A} (a : nd A) ax n : wf_nd a -> nth_error (nd_shape a) ax = Some n -> 0 <= n.
Proof. intros [W _] E. rewrite Forall_forall in W. apply W. eapply nth_error_In, E. Qed.

(** ** scipy *)
Lemma centred_len w origin i : 0 <= w -> zlen (centred w origin i) = w.
Proof. intros H. unfold centred. apply zlen_mapr, H. Qed.
Lemma centred_nth w origin i k : 0 <= k < w -> znth (centred w origin i) k = Some (i - w / 2 - origin + k).
Proof. intros H. unfold centred. apply (znth_mapr (fun k => i - w / 2 - origin + k)), H. Qed.
Lemma sp_line_len op w origin md cval f : zlen (sp_line op w origin md cval f) = zlen f.
Proof. unfold sp_line. apply zlen_mapr. unfold zlen. lia. Qed.

Definition sp_window (w origin : Z) md cval (f : list Q) (i : Z) : list Q := map (read md cval f) (centred w origin i).
Lemma sp_window_len w origin md cval f i : 0 <= w -> zlen (sp_window w origin md cval f i) = w.
Proof. intros H. unfold sp_window. rewrite zlen_map. apply centred_len, H. Qed.
Lemma sp_window_nth w origin md cval f i k : 0 <= k < w ->
  znth (sp_window w origin md cval f i) k = Some (read md cval f (i - w / 2 - origin + k)).
Proof. intros H. unfold sp_window. rewrite znth_map, centred_nth by exact H. reflexivity. Qed.

Lemma apply_scipy_ok a w o ax md cval origin n : wf_nd a -> nth_error (nd_shape a) ax = Some n -> 0 < w <= n -> o <> OStd ->
  - (w / 2) <= origin < w - w / 2 ->
  exists b, apply_scipy a w o ax md cval origin = Ok b /\ wf_nd b /\ nd_shape b = nd_shape a /\
    forall ix i f, inb (nd_shape a) ix -> nth_error ix ax = Some i -> line a ax ix f ->
      0 <= i < zlen f /\ nd_get b ix = Some (Some (sp_reduce o (sp_window w origin md cval f i))).
Proof.
  intros W E B O G. unfold apply_scipy.
  destruct (along_ok (fun f => map Some (sp_line o w origin md cval f)) ax a n W E) as (b & Eb & Wb & Sb & H).
  { intros vs L. rewrite zlen_map, sp_line_len. exact L. }
  exists b. assert (X : (w / 2 + origin <? 0) || (w <=? w / 2 + origin) = false) by lia.
  split; [destruct o; try contradiction; rewrite X, Eb; reflexivity|]. split; [exact Wb|]. split; [exact Sb|].
  intros ix i f I Ei L. destruct (H ix i f I Ei L) as [R ->]. split; [exact R|]. rewrite znth_map. unfold sp_line. rewrite (znth_mapr _ _ _ R). reflexivity.
Qed.
Lemma apply_scipy_origin a w o ax md cval origin : o <> OStd -> ~ - (w / 2) <= origin < w - w / 2 ->
  apply_scipy a w o ax md cval origin = Err ValueError.
Proof.
  intros O G. unfold apply_scipy. assert (X : (w / 2 + origin <? 0) || (w <=? w / 2 + origin) = true) by lia.
  rewrite X. destruct o; congruence || reflexivity.
Qed.

Definition scipy_used (bn : bool) (e : engine) (o : mop) (w : Z) (md : bmode) (origin : Z) : Prop :=
  bn = false \/ e = EScipy \/ e = EOther \/ md <> MReflect \/ origin <> 0 \/ (o = OMedian /\ w mod 2 = 0).
Lemma operation_name o : operation (op_name o) = Some o.
Proof. destruct o; reflexivity. Qed.
Lemma boundary_true md origin : md <> MReflect \/ origin <> 0 -> scipy_boundary md origin = true.
Proof. intros H. unfold scipy_boundary. destruct md; try reflexivity. destruct H as [H|H]; [congruence|]. destruct (origin =? 0) eqn:Q; [lia|reflexivity]. Qed.
Lemma uses_scipy bn root a w o ax e md cval origin mc ddof n : nth_error (nd_shape a) ax = Some n -> 0 < w <= n -> o <> OStd ->
  scipy_used bn e o w md origin ->
  moving_window bn root a w (op_name o) ax e md cval origin mc ddof = apply_scipy a w o ax md cval origin.
Proof.
  intros E B O U. unfold moving_window. destruct (w <=? 0) eqn:Q1; [lia|]. rewrite operation_name, E. destruct (n <? w) eqn:Q2; [lia|].
  unfold select_engine. set (pick := match e with EAuto | EBottleneck => bn | _ => false end).
  assert (X : (match pick, o with false, OStd => Err ParameterError | _, _ => Ok pick end) = Ok pick) by (destruct pick, o; congruence || reflexivity).
  rewrite X. cbn [bind]. destruct pick eqn:P; [|reflexivity]. unfold apply_bottleneck.
  assert (Y : (md <> MReflect \/ origin <> 0) \/ (o = OMedian /\ w mod 2 = 0)).
  { destruct U as [->|[->|[->|[U|[U|U]]]]]; auto; unfold pick in P; try discriminate; destruct e; discriminate. }
  destruct Y as [Y|[-> Y]].
  - rewrite (boundary_true _ _ Y). rewrite Bool.orb_true_r. destruct o; congruence || reflexivity.
  - rewrite Y. reflexivity.
Qed.

Lemma scipy_ok bn root a w o ax e md cval origin mc ddof n : wf_nd a -> nth_error (nd_shape a) ax = Some n -> 0 < w <= n -> o <> OStd ->
  scipy_used bn e o w md origin -> - (w / 2) <= origin < w - w / 2 ->
  exists b, moving_window bn root a w (op_name o) ax e md cval origin mc ddof = Ok b /\
    centred_windows o w origin md cval ax a b.
Proof.
  intros W E B O U G. rewrite (uses_scipy _ _ _ _ _ _ _ _ _ _ _ _ n E B O U).
  destruct (apply_scipy_ok a w o ax md cval origin n W E B O G) as (b & Eb & Wb & Sb & H). exists b. split; [exact Eb|].
  split; [exact Wb|]. split; [exact Sb|]. intros ix i f I Ei L. destruct (H ix i f I Ei L) as [R Hb].
  exists (sp_window w origin md cval f i), (sp_reduce o (sp_window w origin md cval f i)). rewrite sp_window_len by lia. split; [reflexivity|].
  split; [|split; [|exact Hb]].
  - intros k K. rewrite sp_window_nth by exact K. eexists. split; [reflexivity|]. apply read_continued. lia.
  - apply sp_reduce_ok; [exact O|]. intros C. pose proof (sp_window_len w origin md cval f i ltac:(lia)) as Z. rewrite C in Z. unfold zlen in Z. cbn in Z. lia.
Qed.

(** ** bottleneck *)
Lemma filter_above a n : Z.max 0 (a + 1) <= n ->
  filter (fun j => a <? j) (zrange n) = map (fun k => Z.max 0 (a + 1) + k) (zrange (n - Z.max 0 (a + 1))).
Proof.
  set (s := Z.max 0 (a + 1)). intros H. assert (S0 : 0 <= s) by (unfold s; lia).
  replace n with (s + (n - s)) at 1 by lia. assert (N : 0 <= n - s) by lia. revert N. generalize (n - s). clear H n.
  apply (natlike_ind (fun m => filter (fun j => a <? j) (zrange (s + m)) = map (fun k => s + k) (zrange m))).
  - rewrite Z.add_0_r. change (zrange 0) with (@nil Z). cbn [map].
    assert (X : forall l, (forall j, In j l -> j < s) -> (forall j, In j l -> 0 <= j) -> filter (fun j => a <? j) l = []).
    { induction l as [|x t IH]; intros P P'; [reflexivity|]. cbn [filter]. pose proof (P x (or_introl eq_refl)). pose proof (P' x (or_introl eq_refl)).
      destruct (a <? x) eqn:Q; [unfold s in *; lia|]. apply IH; intros; [apply P|apply P']; right; assumption. }
    apply X; intros j J; apply in_zrange in J; lia.
  - intros m M IH. unfold Z.succ. rewrite Z.add_assoc, zrange_snoc by lia. rewrite filter_app, IH. cbn [filter].
    destruct (a <? s + m) eqn:Q; [|unfold s in *; lia]. rewrite zrange_snoc by lia. rewrite map_app. reflexivity.
Qed.
Definition bn_window (w : Z) (f : list Q) (i : Z) : list Q := map (at_ f) (trailing w i).
Lemma bn_window_len w f i : 0 <= i -> 0 < w -> zlen (bn_window w f i) = i - Z.max 0 (i - w + 1) + 1.
Proof. intros A B. unfold bn_window, trailing. rewrite filter_above by lia. rewrite zlen_map, zlen_mapr; lia. Qed.
Lemma bn_window_nth w f i k : 0 <= i < zlen f -> 0 < w -> 0 <= k < zlen (bn_window w f i) ->
  znth (bn_window w f i) k = znth f (Z.max 0 (i - w + 1) + k).
Proof.
  intros A B K. rewrite bn_window_len in K by lia. unfold bn_window, trailing. rewrite filter_above by lia.
  rewrite znth_map, (znth_mapr (fun k => Z.max 0 (i - w + 1) + k)) by lia. cbn [option_map]. symmetry. apply znth_at. lia.
Qed.
Lemma shifted_len {A} w (l : list A) : 0 < w <= zlen l -> zlen (shifted w l) = zlen l.
Proof. intros B. unfold shifted, zlen in *. rewrite app_length, !skipn_length. dlia. Qed.
Lemma shifted_nth {A} w (l : list A) i : 0 < w <= zlen l -> 0 <= i < zlen l ->
  znth (shifted w l) i = znth l (if i + w / 2 <? zlen l then i + w / 2 else i).
Proof.
  intros B I. unfold shifted. assert (S : 0 <= w / 2 <= zlen l) by dlia. set (s := w / 2) in *. clearbody s.
  assert (L : zlen (skipn (Z.to_nat s) l) = zlen l - s) by (unfold zlen; rewrite skipn_length; unfold zlen in *; lia).
  rewrite znth_app. rewrite L. destruct (i + s <? zlen l) eqn:R.
  - destruct (i <? zlen l - s) eqn:T; [|lia]. rewrite znth_skipn by lia. f_equal. lia.
  - destruct (i <? zlen l - s) eqn:T; [lia|]. rewrite znth_skipn by lia. f_equal. lia.
Qed.

Lemma bn_line_len root ddof op w mc f : 0 < w <= zlen f -> zlen (bn_line root ddof op w mc f) = zlen f.
Proof. intros B. unfold bn_line. rewrite shifted_len; rewrite zlen_mapr; unfold zlen in *; lia. Qed.
Lemma bn_line_nth root ddof op w mc f i : 0 < w <= zlen f -> 0 <= i < zlen f ->
  znth (bn_line root ddof op w mc f) i =
  let l := bn_window w f (if i + w / 2 <? zlen f then i + w / 2 else i) in
  Some (if zlen l <? mc then None else Some (bn_reduce root ddof op l)).
Proof.
  intros B I. unfold bn_line. match goal with |- context [shifted w ?m] => assert (L : zlen m = zlen f) by (apply zlen_mapr; unfold zlen; lia) end.
  rewrite shifted_nth, L by (rewrite L; assumption).
  rewrite znth_mapr; [reflexivity|]. destruct (i + w / 2 <? zlen f) eqn:Q; [|lia]. dlia.
Qed.
Lemma uses_bn root a w o ax e cval mc ddof n : nth_error (nd_shape a) ax = Some n -> 0 < w <= n ->
  e = EAuto \/ e = EBottleneck -> (o = OMedian -> w mod 2 = 1) -> (o = OStd -> ddof < mc) -> 0 < mc <= w ->
  moving_window true root a w (op_name o) ax e MReflect cval 0 mc ddof = opt_result (along (bn_line root ddof o w mc) ax a).
Proof.
  intros E B U O D M. unfold moving_window. destruct (w <=? 0) eqn:Q1; [lia|]. rewrite operation_name, E. destruct (n <? w) eqn:Q2; [lia|].
  assert (X : select_engine true e o = Ok true) by (destruct U as [-> | ->]; destruct o; reflexivity). rewrite X. cbn [bind].
  unfold apply_bottleneck. assert (Y : (mc <=? 0) || (w <? mc) = false) by lia. rewrite Y.
  change (scipy_boundary MReflect 0) with false. destruct o; try reflexivity.
  - rewrite (O eq_refl). reflexivity.
  - specialize (D eq_refl). destruct (mc <=? ddof) eqn:Q; [lia|reflexivity].
Qed.
Lemma bn_val root a w o ax e cval mc ddof n : wf_nd a -> nth_error (nd_shape a) ax = Some n -> 0 < w <= n ->
  e = EAuto \/ e = EBottleneck -> (o = OMedian -> w mod 2 = 1) -> (o = OStd -> ddof < mc) -> 0 < mc <= w ->
  exists b, moving_window true root a w (op_name o) ax e MReflect cval 0 mc ddof = Ok b /\ wf_nd b /\ nd_shape b = nd_shape a /\
    forall ix i f, inb (nd_shape a) ix -> nth_error ix ax = Some i -> line a ax ix f ->
      zlen f = n /\ 0 <= i < zlen f /\ nd_get b ix =
        let l := bn_window w f (if i + w / 2 <? zlen f then i + w / 2 else i) in
        Some (if zlen l <? mc then None else Some (bn_reduce root ddof o l)).
Proof.
  intros W E B U O D M. rewrite (uses_bn _ _ _ _ _ _ _ _ _ n) by assumption.
  destruct (along_ok (bn_line root ddof o w mc) ax a n W E) as (b & Eb & Wb & Sb & H).
  { intros vs L. rewrite bn_line_len; lia. }
  exists b. rewrite Eb. split; [reflexivity|]. split; [exact Wb|]. split; [exact Sb|].
  intros ix i f I Ei L. destruct (H ix i f I Ei L) as [R ->]. destruct L as [L _]. rewrite E in L. injection L as L.
  split; [lia|]. split; [exact R|]. apply bn_line_nth; lia.
Qed.
Lemma bottleneck_ok root a w o ax e cval mc ddof n : wf_nd a -> nth_error (nd_shape a) ax = Some n -> 0 < w <= n ->
  e = EAuto \/ e = EBottleneck -> (o = OMedian -> w mod 2 = 1) -> (o = OStd -> ddof < mc) -> 0 < mc <= w ->
  exists b, moving_window true root a w (op_name o) ax e MReflect cval 0 mc ddof = Ok b /\ trailing_windows root o w mc ddof ax a b.
Proof.
  intros W E B U O D M. destruct (bn_val root a w o ax e cval mc ddof n) as (b & Eb & Wb & Sb & H); auto.
  exists b. split; [exact Eb|]. split; [exact Wb|]. split; [exact Sb|]. intros ix i f I Ei L. destruct (H ix i f I Ei L) as (Ln & R & Hb).
  cbv zeta in Hb |- *. set (last := if i + w / 2 <? zlen f then i + w / 2 else i) in *.
  assert (La : 0 <= last < zlen f) by (unfold last; destruct (i + w / 2 <? zlen f) eqn:Q; [dlia|exact R]). clearbody last.
  exists (bn_window w f last). rewrite bn_window_len by lia. split; [reflexivity|]. split; [|split].
  - intros k K. apply bn_window_nth; try lia. rewrite bn_window_len; lia.
  - intros K. rewrite Hb, bn_window_len by lia. destruct (last - Z.max 0 (last - w + 1) + 1 <? mc) eqn:Q; [reflexivity|lia].
  - intros K. eexists. split; [|rewrite Hb, bn_window_len by lia; destruct (last - Z.max 0 (last - w + 1) + 1 <? mc) eqn:Q; [lia|reflexivity]].
    apply bn_reduce_ok.
    + intros O'. specialize (D O'). rewrite bn_window_len; lia.
    + intros C. pose proof (bn_window_len w f last ltac:(lia) ltac:(lia)) as Z. rewrite C in Z. unfold zlen in Z. cbn in Z. lia.
Qed.

(** ** The two agree inside the line *)
Lemma reduce_same root ddof o l : Z.odd (zlen l) = true -> l <> [] -> o <> OStd -> (sp_reduce o l == bn_reduce root ddof o l)%Q.
Proof.
  intros N E O. destruct o; cbn [sp_reduce bn_reduce]; try reflexivity.
  - unfold bn_median. rewrite N. reflexivity.
  - congruence.
  - apply (qmean_ok l E).
Qed.
Lemma windows_same w md cval f i : 0 < w -> w mod 2 = 1 -> w / 2 <= i -> i + w / 2 < zlen f -> md = MReflect ->
  sp_window w 0 md cval f i = bn_window w f (i + w / 2).
Proof.
  intros W O A B ->. assert (H : w = 2 * (w / 2) + 1) by dlia. set (h := w / 2) in *. clearbody h.
  assert (L : zlen (bn_window w f (i + h)) = w) by (rewrite bn_window_len; lia).
  apply znth_ext_len; [rewrite sp_window_len, L; lia|]. rewrite sp_window_len by lia. intros k K.
  rewrite sp_window_nth by exact K. rewrite bn_window_nth by lia. replace (w / 2) with h by dlia.
  replace (Z.max 0 (i + h - w + 1) + k) with (i - h - 0 + k) by lia. symmetry.
  unfold read, border. set (j := i - h - 0 + k). assert (J : 0 <= j < zlen f) by (unfold j; lia). clearbody j.
  rewrite Z.mod_small by lia. destruct (j <? zlen f) eqn:Q; [|lia]. apply znth_at, J.
Qed.
Lemma engines_agree bn root a w o ax e cval mc ddof n b c : wf_nd a -> nth_error (nd_shape a) ax = Some n -> 0 < w <= n ->
  w mod 2 = 1 -> o <> OStd -> 0 < mc <= w -> e = EAuto \/ e = EBottleneck ->
  moving_window bn root a w (op_name o) ax EScipy MReflect cval 0 mc ddof = Ok b ->
  moving_window true root a w (op_name o) ax e MReflect cval 0 mc ddof = Ok c ->
  forall ix i, inb (nd_shape a) ix -> nth_error ix ax = Some i -> w / 2 <= i < n - w / 2 ->
    exists x y, nd_get b ix = Some (Some x) /\ nd_get c ix = Some (Some y) /\ (x == y)%Q.
Proof.
  intros W E B O S M U Eb Ec ix i I Ei R.
  rewrite (uses_scipy _ _ _ _ _ _ _ _ _ _ _ _ n E B S) in Eb by (unfold scipy_used; auto).
  destruct (apply_scipy_ok a w o ax MReflect cval 0 n W E B S) as (b' & Eb' & _ & _ & Hb); [dlia|]. rewrite Eb' in Eb. injection Eb as ->.
  destruct (bn_val root a w o ax e cval mc ddof n) as (c' & Ec' & _ & _ & Hc); auto; [congruence|]. rewrite Ec' in Ec. injection Ec as ->.
  destruct (line_total a ax n ix W E I) as (f & _ & L); [lia|].
  destruct (Hb ix i f I Ei L) as [_ ->]. destruct (Hc ix i f I Ei L) as (N & _ & ->). cbv zeta.
  destruct (i + w / 2 <? zlen f) eqn:Q; [|lia]. rewrite <- (windows_same w MReflect cval f i) by (auto; lia).
  rewrite sp_window_len by lia. destruct (w <? mc) eqn:Q2; [lia|]. eexists. eexists. split; [reflexivity|]. split; [reflexivity|].
  apply reduce_same; auto.
  - rewrite sp_window_len by lia. rewrite Zodd_mod. rewrite O. reflexivity.
  - intros C. pose proof (sp_window_len w 0 MReflect cval f i ltac:(lia)) as Z. rewrite C in Z. unfold zlen in Z. cbn in Z. lia.
Qed.

(** ** Refusals *)
Lemma moving_refused bn root a w op ax e md cval origin mc ddof n : nth_error (nd_shape a) ax = Some n ->
  w <= 0 \/ n < w \/ (forall o, op <> op_name o) ->
  moving_window bn root a w op ax e md cval origin mc ddof = Err ParameterError.
Proof.
  intros E H. unfold moving_window. destruct (w <=? 0) eqn:Q; [reflexivity|].
  destruct (operation op) as [o|] eqn:EO; [|reflexivity]. rewrite E. destruct (n <? w) eqn:Q2; [reflexivity|].
  destruct H as [H|[H|H]]; [lia|lia|]. exfalso. apply (H o). revert EO. unfold operation.
  repeat match goal with |- context [String.eqb op ?s] => destruct (String.eqb_spec op s) as [->|]; [intros [= <-]; reflexivity|] end. discriminate.
Qed.
Lemma std_refused bn root a w ax e md cval origin mc ddof n : nth_error (nd_shape a) ax = Some n -> 0 < w <= n ->
  bn = false \/ e = EScipy \/ e = EOther \/ md <> MReflect \/ origin <> 0 ->
  moving_window bn root a w "std" ax e md cval origin mc ddof = Err ParameterError.
Proof.
  intros E B U. change "std"%string with (op_name OStd). unfold moving_window. destruct (w <=? 0) eqn:Q1; [lia|]. rewrite operation_name, E. destruct (n <? w) eqn:Q2; [lia|].
  unfold select_engine. set (pick := match e with EAuto | EBottleneck => bn | _ => false end).
  destruct pick eqn:P; [|reflexivity]. cbn [bind]. unfold apply_bottleneck.
  assert (Y : md <> MReflect \/ origin <> 0).
  { destruct U as [->|[->|[->|U]]]; auto; unfold pick in P; try discriminate; destruct e; discriminate. }
  rewrite (boundary_true _ _ Y). reflexivity.
Qed.
Lemma origin_refused bn root a w o ax e md cval origin mc ddof n : nth_error (nd_shape a) ax = Some n -> 0 < w <= n -> o <> OStd ->
  ~ - (w / 2) <= origin < w - w / 2 ->
  moving_window bn root a w (op_name o) ax e md cval origin mc ddof = Err ValueError.
Proof.
  intros E B O G. rewrite (uses_scipy _ _ _ _ _ _ _ _ _ _ _ _ n E B O).
  - apply apply_scipy_origin; assumption.
  - unfold scipy_used. destruct (Z.eq_dec origin 0) as [->|]; [|tauto]. exfalso. apply G. dlia.
Qed.
Lemma count_refused root a w o ax e cval mc ddof n : nth_error (nd_shape a) ax = Some n -> 0 < w <= n ->
  e = EAuto \/ e = EBottleneck -> (o = OMedian -> w mod 2 = 1) -> (o = OStd -> ddof < mc) -> ~ 0 < mc <= w ->
  moving_window true root a w (op_name o) ax e MReflect cval 0 mc ddof = Err ValueError.
Proof.
  intros E B U O D M. unfold moving_window. destruct (w <=? 0) eqn:Q1; [lia|]. rewrite operation_name, E. destruct (n <? w) eqn:Q2; [lia|].
  assert (X : select_engine true e o = Ok true) by (destruct U as [-> | ->]; destruct o; reflexivity). rewrite X. cbn [bind].
  unfold apply_bottleneck. assert (Y : (mc <=? 0) || (w <? mc) = true) by lia. rewrite Y.
  change (scipy_boundary MReflect 0) with false. destruct o; try reflexivity.
  - rewrite (O eq_refl). reflexivity.
  - specialize (D eq_refl). destruct (mc <=? ddof) eqn:Q; [lia|reflexivity].
Qed.
