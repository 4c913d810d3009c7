(** Properties C84, C85 and C86: detrending, kurtosis and slant stacks. Model: TrendModel.v.
    Specification vocabulary: TrendSpec.v. *)
From Verif Require Import Base BaseFacts CoordModel CoordSpec NdModel NdSpec FrameModel ChunkModel CmModel CmSpec CmProofs CmProofs18 CmProps
  MuteModel MuteProofs2 CalcModel CalcSpec CalcProofs MoveModel MoveSpec MoveProofs TrendModel TrendSpec TrendProofs TrendProofs2 TrendProofs3 TrendProofs4 TrendProofs5.
From Coq Require Import Strings.String ZifyBool QArith Qabs Lia Lqa.
Local Open Scope Z_scope.
Local Open Scope list_scope.
Local Open Scope string_scope.

(** * C84: detrend *)

(** Every line comes out less a straight line (or a constant) such that no other leaves
    smaller squares; what is left adds up to zero. *)
Theorem C84_least_squares : forall p ax d ty off, wf_patch p -> nth_error (cm_dims (p_cm p)) ax = Some d -> In (ty, off) trend_names ->
  exists q, pt_detrend d ty p = Ok q /\ p_cm q = p_cm p /\
    by_line (fun f g => best off f g /\ (total_of g == 0)%Q) ax (p_data p) (p_data q).
Proof. exact detrend_ok. Qed.
Print Assumptions C84_least_squares.
(** There is only one such line, so a trend in the data makes no difference, *)
Theorem C84_trends_vanish : forall p p' ax d ty off q q', wf_patch p -> wf_patch p' -> nth_error (cm_dims (p_cm p)) ax = Some d ->
  nth_error (cm_dims (p_cm p')) ax = Some d -> In (ty, off) trend_names ->
  by_line off ax (p_data p) (p_data p') -> pt_detrend d ty p = Ok q -> pt_detrend d ty p' = Ok q' ->
  forall ix x y, nd_get (p_data q) ix = Some x -> nd_get (p_data q') ix = Some y -> (x == y)%Q.
Proof. exact detrend_same. Qed.
Print Assumptions C84_trends_vanish.
(** and a second time changes nothing. *)
Theorem C84_again : forall p ax d ty off q r, wf_patch p -> nth_error (cm_dims (p_cm p)) ax = Some d -> In (ty, off) trend_names ->
  pt_detrend d ty p = Ok q -> pt_detrend d ty q = Ok r ->
  forall ix x y, nd_get (p_data q) ix = Some x -> nd_get (p_data r) ix = Some y -> (x == y)%Q.
Proof. exact detrend_again. Qed.
Print Assumptions C84_again.
Theorem C84_refused : forall p d ty,
  (~ In d (cm_dims (p_cm p)) -> pt_detrend d ty p = Err ParameterError) /\
  (In d (cm_dims (p_cm p)) -> (forall off, ~ In (ty, off) trend_names) -> pt_detrend d ty p = Err ValueError).
Proof. exact detrend_refused. Qed.
Print Assumptions C84_refused.

Definition section (n m : Z) (l : list Q) : patch Q :=
  mkPatch (mkCm ["distance"; "time"] [("distance", rng 0 2 n); ("time", rng 0 1 m)] [("distance", ["distance"]); ("time", ["time"])]) (mkNd [n; m] l).
Definition values {A} (r : result (patch A)) : list A := match r with Ok q => nd_flat (p_data q) | Err _ => [] end.
Example C84_applies :
  wf_patch (section 2 3 [1; 2; 6; 0; 0; 3]%Q) /\
  map Qred (values (pt_detrend "time" "linear" (section 2 3 [1; 2; 6; 0; 0; 3]%Q))) = [1 # 2; -(1); 1 # 2; 1 # 2; -(1); 1 # 2]%Q /\
  map Qred (values (pt_detrend "time" "c" (section 2 3 [1; 2; 6; 0; 0; 3]%Q))) = [-(2); -(1); 3; -(1); -(1); 2]%Q /\
  map Qred (values (pt_detrend "distance" "l" (section 1 3 [1; 2; 6]%Q))) = [0; 0; 0]%Q /\
  pt_detrend "depth" "l" (section 1 3 [1; 2; 6]%Q) = Err ParameterError /\ pt_detrend "time" "cubic" (section 1 3 [1; 2; 6]%Q) = Err ValueError.
Proof. split; [apply patch_okb_ok; vm_compute; reflexivity|]. repeat split; vm_compute; reflexivity. Qed.
Example C84_trends_witness : by_line less_line 1 (p_data (section 1 3 [1; 2; 6]%Q)) (p_data (section 1 3 [5; 5; 8]%Q)).
Proof.
  split; [split; [repeat constructor; lia|reflexivity]|]. split; [reflexivity|]. intros ix f I [E L].
  assert (X : ix = [0; nth 1 ix 0]) by (cbn in I; inversion I as [|? ? ? ? A B]; inversion B as [|? ? ? ? A' B']; inversion B'; subst; f_equal; lia).
  assert (F : f = [1; 2; 6]%Q).
  { cbn in E. injection E as E. apply znth_ext_len; [rewrite <- E; reflexivity|]. intros k K. rewrite <- L by exact K. rewrite X. rewrite <- E in K.
    assert (H : k = 0 \/ k = 1 \/ k = 2) by lia. destruct H as [->|[->| ->]]; reflexivity. }
  subst f. exists [5; 5; 8]%Q. split; [split; [reflexivity|]|].
  - intros k K. change (zlen [5; 5; 8]%Q) with 3 in K. rewrite X. assert (H : k = 0 \/ k = 1 \/ k = 2) by lia. destruct H as [->|[->| ->]]; reflexivity.
  - split; [reflexivity|]. exists (-(4))%Q, 1%Q. intros k x y A B. assert (K : 0 <= k < 3) by (apply (znth_range [1; 2; 6]%Q); eauto).
    assert (H : k = 0 \/ k = 1 \/ k = 2) by lia. destruct H as [->|[->| ->]]; cbn in A, B; apply some_inj in A, B; subst; reflexivity.
Qed.

(** * C85: kurtosis *)

(** The window is the number of samples asked for (in steps, rounded up; whichever way the
    coordinate runs). With recursive=False each sample gets the kurtosis of the window
    around it, of what there is of it; NaN exactly if the elements are all equal. With
    recursive=True it gets the fading mean of fourth powers. *)
Theorem C85_kurtosis : forall p ax d r samples recursive v n, wf_patch p -> nth_error (cm_dims (p_cm p)) ax = Some d ->
  assoc d (cm_coords (p_cm p)) = Some (M1 (CRange r)) -> samples_asked samples r v n -> 2 <= n ->
  exists q, pt_kurtosis samples recursive [(d, v)] p = Ok q /\ p_cm q = p_cm p /\
    by_line (if recursive then recursive_kurtosis n else windowed_kurtosis n) ax (p_data p) (p_data q).
Proof. exact kurtosis_ok. Qed.
Print Assumptions C85_kurtosis.
(** Kurtosis in windows is never below one. *)
Theorem C85_at_least_one : forall p d v samples q ix k, wf_patch p -> pt_kurtosis samples false [(d, v)] p = Ok q ->
  forall r n, assoc d (cm_coords (p_cm p)) = Some (M1 (CRange r)) -> samples_asked samples r v n ->
  nd_get (p_data q) ix = Some (Some k) -> (1 <= k)%Q.
Proof.
  intros p d v samples q ix k W E r n C A G.
  assert (D : In d (cm_dims (p_cm p))).
  { destruct (in_dec string_dec d (cm_dims (p_cm p))) as [D|D]; [exact D|]. rewrite (proj1 (kurtosis_refused p samples false W)) in E; [discriminate|]. intros d' v' [K|[]]. injection K as <- <-. exact D. }
  destruct (Z_lt_le_dec n 2) as [N|N].
  - destruct (kurtosis_refused p samples false W) as (_ & _ & R & _). rewrite (R d v r n D C A N) in E. discriminate.
  - apply In_nth_error in D. destruct D as [ax D]. destruct (kurtosis_ok p ax d r samples false v n W D C A N) as (q' & E' & _ & B).
    rewrite E in E'. injection E' as <-. destruct B as (Wq & S & B).
    assert (I : inb (nd_shape (p_data p)) ix) by (rewrite <- S; eapply NdProofs.nd_get_inb; eauto).
    destruct (axis_shape p ax d W D) as [m Sm]. destruct (TaperProofs2.inb_axis _ _ _ _ I Sm) as (i & Ei & Im).
    destruct (line_total (p_data p) ax m ix (wp_nd _ W) Sm I) as (f & _ & L); [lia|]. destruct (B ix f I L) as (g & Lg & LG & H).
    destruct (proj1 L) as [].  destruct Lg as [Sg Lg]. rewrite S, Sm in Sg. apply some_inj in Sg.
    destruct (H i) as (ws & v' & P & Z & K); [lia|]. specialize (Lg i ltac:(lia)). rewrite (NdProofs.put_nth _ _ _ Ei), G, Z in Lg. apply some_inj in Lg. subst v'.
    apply (kurtosis_least ws k); [|exact K]. intros ->. destruct P as [P _].
    assert (0 < n / 2 < n) by (split; [apply Z.div_str_pos; lia|apply Z.div_lt; lia]). set (h := n / 2) in *. clearbody h. change (zlen (@nil Q)) with 0 in P. lia.
Qed.
Print Assumptions C85_at_least_one.
Theorem C85_refused : forall p samples recursive, wf_patch p ->
  (forall kw, (forall d v, In (d, v) kw -> ~ In d (cm_dims (p_cm p))) -> pt_kurtosis samples recursive kw p = Err ParameterError) /\
  (forall d v d' v', d <> d' -> In d (cm_dims (p_cm p)) -> In d' (cm_dims (p_cm p)) -> pt_kurtosis samples recursive [(d, v); (d', v')] p = Err ParameterError) /\
  (forall d v d' v', In d (cm_dims (p_cm p)) -> ~ In d' (cm_dims (p_cm p)) -> pt_kurtosis samples recursive [(d, v); (d', v')] p = Err PatchCoordinateError) /\
  (forall d v r n, In d (cm_dims (p_cm p)) -> assoc d (cm_coords (p_cm p)) = Some (M1 (CRange r)) ->
     samples_asked samples r v n -> n < 2 -> pt_kurtosis samples recursive [(d, v)] p = Err ParameterError) /\
  (forall d v, In d (cm_dims (p_cm p)) -> (forall r, assoc d (cm_coords (p_cm p)) <> Some (M1 (CRange r))) ->
     pt_kurtosis samples recursive [(d, v)] p = Err CoordError).
Proof.
  intros p samples recursive W. destruct (kurtosis_refused p samples recursive W) as (A & B & C & D).
  split; [exact A|]. split; [|split; [|split; [exact C|exact D]]].
  - intros d v d' v' N I I'. rewrite (B [(d, v); (d', v')] d v d' v'); [|repeat constructor; cbn; intuition|left; reflexivity|right; left; reflexivity|exact N|exact I].
    rewrite (proj2 (mem_dims d' _) I'). reflexivity.
  - intros d v d' v' I I'. assert (N : d <> d') by (intros ->; contradiction).
    rewrite (B [(d, v); (d', v')] d v d' v'); [|repeat constructor; cbn; intuition|left; reflexivity|right; left; reflexivity|exact N|exact I].
    cbn [filter fst]. rewrite (proj2 (mem_dims d _) I). destruct (mem d' (cm_dims (p_cm p))) eqn:M; [apply mem_dims in M; contradiction|]. reflexivity.
Qed.
Print Assumptions C85_refused.
Definition reduced (l : list (option Q)) : list (option Q) := map (option_map Qred) l.
Example C85_applies :
  wf_patch (section 2 4 [1; 1; 1; 2; 0; 0; 0; 0]%Q) /\
  samples_asked false (mkRange KInt 0 4 1 4) 3 3 /\ samples_asked true (mkRange KInt 0 4 1 4) 3 3 /\ samples_asked false (mkRange KInt 9 (-3) (-3) 4) 8 3 /\
  reduced (values (pt_kurtosis true false [("time", 3)] (section 2 4 [1; 1; 1; 2; 0; 0; 0; 0]%Q))) =
    [None; None; Some (3 # 2)%Q; Some 1%Q; None; None; None; None] /\
  reduced (values (pt_kurtosis false true [("time", 2)] (section 2 3 [0; 1; 1; 0; 0; 0]%Q))) =
    [Some 0%Q; Some (81 # 128)%Q; Some (729 # 2048)%Q; None; None; None] /\
  pt_kurtosis true true [("time", 1)] (section 2 3 [0; 1; 1; 0; 0; 0]%Q) = Err ParameterError.
Proof.
  split; [apply patch_okb_ok; vm_compute; reflexivity|]. split; [cbn; lia|]. split; [reflexivity|]. split; [cbn; lia|].
  repeat split; vm_compute; reflexivity.
Qed.

(** * C86: tau_p *)

Definition slants (r : result (list Q * crange * list (list Q))) : list (list Q) := match r with Ok (_, _, o) => map (map Qred) o | Err _ => [] end.
(** Distances with even steps: for every velocity one row for waves that come from the first
    place and one for those from the last, each the sum over the traces of what is read at
    the time the wave takes, along straight lines between the samples. *)
Theorem C86_even : forall p, wf_patch p -> cm_dims (p_cm p) = ["distance"; "time"] -> forall r,
  assoc "time" (cm_coords (p_cm p)) = Some (M1 (CRange r)) -> 0 < r_step r -> forall vels, all_positive vels -> rising vels ->
  forall rows, traces (p_data p) rows -> forall x, assoc "distance" (cm_coords (p_cm p)) = Some (M1 (CRange x)) -> 0 < r_step x ->
  let ps := map (fun v => 1 / v)%Q vels in
  exists out, pt_taup vels p = Ok ((rev (map Qopp ps) ++ ps)%list, r, out) /\
    let dx := seconds (r_kind x) (r_step x) in
    slant_rows rows (fun k => inject_Z k * dx)%Q (fun k => inject_Z (zlen rows - 1 - k) * dx)%Q (seconds (r_kind r) (r_step r)) (r_len r) ps out.
Proof. exact taup_even. Qed.
Print Assumptions C86_even.
(** Other distances, not before the first: the same for the positive slownesses; for the
    negative ones the time is that of the wave from the last place, but the two samples are
    those around the time of the trace as far from the other end. *)
Theorem C86_uneven_partial : forall p, wf_patch p -> cm_dims (p_cm p) = ["distance"; "time"] -> forall r,
  assoc "time" (cm_coords (p_cm p)) = Some (M1 (CRange r)) -> 0 < r_step r -> forall vels, all_positive vels -> rising vels ->
  forall rows, traces (p_data p) rows -> forall c k v, (c = CMono k v \/ c = CArr k v) -> assoc "distance" (cm_coords (p_cm p)) = Some (M1 c) ->
  (forall i z z0, znth v i = Some z -> znth v 0 = Some z0 -> z0 <= z) ->
  let ps := map (fun v => 1 / v)%Q vels in
  exists out, pt_taup vels p = Ok ((rev (map Qopp ps) ++ ps)%list, r, out) /\
    let ds := map (seconds k) v in
    slant_rows_mixed rows (fun i => at_ ds i - at_ ds 0)%Q (fun i => at_ ds (zlen ds - 1) - at_ ds i)%Q (seconds (r_kind r) (r_step r)) (r_len r) ps out.
Proof. exact taup_uneven. Qed.
Print Assumptions C86_uneven_partial.
(** Distances that are the same from both ends: as with even steps. *)
Theorem C86_mirrored : forall p, wf_patch p -> cm_dims (p_cm p) = ["distance"; "time"] -> forall r,
  assoc "time" (cm_coords (p_cm p)) = Some (M1 (CRange r)) -> 0 < r_step r -> forall vels, all_positive vels -> rising vels ->
  forall rows, traces (p_data p) rows -> forall c k v, (c = CMono k v \/ c = CArr k v) -> assoc "distance" (cm_coords (p_cm p)) = Some (M1 c) ->
  (forall i z z0, znth v i = Some z -> znth v 0 = Some z0 -> z0 <= z) ->
  (forall i z0 z z' z1, znth v 0 = Some z0 -> znth v (zlen v - 1) = Some z1 -> znth v i = Some z -> znth v (zlen v - 1 - i) = Some z' -> z' - z0 = z1 - z) ->
  let ps := map (fun v => 1 / v)%Q vels in
  exists out, pt_taup vels p = Ok ((rev (map Qopp ps) ++ ps)%list, r, out) /\
    let ds := map (seconds k) v in
    slant_rows rows (fun i => at_ ds i - at_ ds 0)%Q (fun i => at_ ds (zlen ds - 1) - at_ ds i)%Q (seconds (r_kind r) (r_step r)) (r_len r) ps out.
Proof. exact taup_mirrored. Qed.
Print Assumptions C86_mirrored.
Example C86_mirrored_witness :
  let p := mkPatch (mkCm ["distance"; "time"] [("distance", M1 (CMono KInt [0; 1; 3; 4])); ("time", rng 0 1 4)] [("distance", ["distance"]); ("time", ["time"])])
    (mkNd [4; 4] [1; 2; 3; 4; 10; 20; 50; 40; 100; 200; 300; 400; 0; 0; 0; 8]%Q) in
  wf_patch p /\ slants (pt_taup [1; 2]%Q p) = [[188; 295; 350; 0]; [200; 300; 0; 0]; [21; 52; 3; 0]; [266; 387; 48; 0]]%Q.
Proof. split; [apply patch_okb_ok; vm_compute; reflexivity|vm_compute; reflexivity]. Qed.
Theorem C86_refused : forall p vels,
  (forall d, In d ["time"; "distance"] -> ~ In d (cm_dims (p_cm p)) -> pt_taup vels p = Err PatchCoordinateError) /\
  (forall d d', cm_dims (p_cm p) = [d; d'] -> In "time" [d; d'] -> In "distance" [d; d'] -> forall c, assoc "distance" (cm_coords (p_cm p)) = Some (M1 c) ->
     ((forall r, assoc "time" (cm_coords (p_cm p)) <> Some (M1 (CRange r))) -> pt_taup vels p = Err CoordError) /\
     (forall r, assoc "time" (cm_coords (p_cm p)) = Some (M1 (CRange r)) -> ~ (all_positive vels /\ rising vels) -> pt_taup vels p = Err ParameterError)).
Proof. exact taup_refused. Qed.
Print Assumptions C86_refused.

Definition gathered : patch Q := section 3 4 [1; 2; 3; 4; 10; 20; 30; 40; 100; 200; 300; 400]%Q.
Example C86_applies :
  wf_patch gathered /\ all_positive [2; 4]%Q /\ rising [2; 4]%Q /\ traces (p_data gathered) [[1; 2; 3; 4]; [10; 20; 30; 40]; [100; 200; 300; 400]]%Q /\
  slants (pt_taup [2; 4]%Q gathered) = [[117; 228; 335; 0]; [123; 230; 300; 0]; [321; 32; 3; 0]; [216; 327; 38; 0]]%Q.
Proof.
  split; [apply patch_okb_ok; vm_compute; reflexivity|]. split; [intros x [<-|[<-|[]]]; reflexivity|]. split; [apply rising_ok; reflexivity|]. split; [|vm_compute; reflexivity].
  exists 4. split; [reflexivity|]. intros i f F. assert (K : 0 <= i < 3) by (apply (znth_range [[1; 2; 3; 4]; [10; 20; 30; 40]; [100; 200; 300; 400]]%Q); eauto).
  assert (H : i = 0 \/ i = 1 \/ i = 2) by lia. destruct H as [->|[->| ->]]; cbn in F; apply some_inj in F; subst f; (split; [reflexivity|]; intros t T;
    assert (H : t = 0 \/ t = 1 \/ t = 2 \/ t = 3) by lia; destruct H as [->|[->|[->| ->]]]; reflexivity).
Qed.

(** A stack of one trace should be the trace: its last sample is lost. *)
Theorem C86_last_refuted : ~ (forall p vels ps r out f, wf_patch p -> cm_dims (p_cm p) = ["distance"; "time"] -> traces (p_data p) [f] ->
  pt_taup vels p = Ok (ps, r, out) -> forall row, In row out -> Forall2 Qeq row f).
Proof.
  intros H. assert (W : wf_patch (section 1 3 [1; 2; 3]%Q)) by (apply patch_okb_ok; vm_compute; reflexivity).
  assert (T : traces (p_data (section 1 3 [1; 2; 3]%Q)) [[1; 2; 3]%Q]).
  { exists 3. split; [reflexivity|]. intros i f F. assert (K : 0 <= i < 1) by (apply (znth_range [[1; 2; 3]%Q]); eauto). assert (i = 0) by lia. subst i.
    cbn in F. apply some_inj in F. subst f. split; [reflexivity|]. intros t U. assert (E : t = 0 \/ t = 1 \/ t = 2) by lia. destruct E as [->|[->| ->]]; reflexivity. }
  destruct (pt_taup [2]%Q (section 1 3 [1; 2; 3]%Q)) as [[[ps r] out]|] eqn:E; [|discriminate E].
  specialize (H _ _ _ _ _ _ W eq_refl T E). vm_compute in E. injection E as <- <- <-. specialize (H _ (or_introl eq_refl)).
  inversion H as [|? ? ? ? _ B]. inversion B as [|? ? ? ? _ C]. inversion C as [|? ? ? ? D _]. vm_compute in D. discriminate.
Qed.
Print Assumptions C86_last_refuted.
(** Uneven distances: the rows of the negative slownesses are not those of waves from the last
    place. *)
Definition uneven : patch Q :=
  mkPatch (mkCm ["distance"; "time"] [("distance", M1 (CMono KInt [0; 1; 5])); ("time", rng 0 1 4)] [("distance", ["distance"]); ("time", ["time"])])
    (mkNd [3; 4] [1; 2; 3; 4; 10; 20; 50; 40; 100; 200; 300; 400]%Q).
Definition uneven_rows : list (list Q) := [[1; 2; 3; 4]; [10; 20; 50; 40]; [100; 200; 300; 400]]%Q.
Theorem C86_uneven_refuted : ~ (forall p, wf_patch p -> cm_dims (p_cm p) = ["distance"; "time"] -> forall r,
  assoc "time" (cm_coords (p_cm p)) = Some (M1 (CRange r)) -> 0 < r_step r -> forall vels, all_positive vels -> rising vels ->
  forall rows, traces (p_data p) rows -> forall k v, assoc "distance" (cm_coords (p_cm p)) = Some (M1 (CMono k v)) ->
  let ps := map (fun v => 1 / v)%Q vels in
  exists out, pt_taup vels p = Ok ((rev (map Qopp ps) ++ ps)%list, r, out) /\
    let ds := map (seconds k) v in
    slant_rows rows (fun i => at_ ds i - at_ ds 0)%Q (fun i => at_ ds (zlen ds - 1) - at_ ds i)%Q (seconds (r_kind r) (r_step r)) (r_len r) ps out).
Proof.
  intros H. specialize (H uneven ltac:(apply patch_okb_ok; vm_compute; reflexivity) eq_refl _ eq_refl ltac:(cbn; lia) [2]%Q ltac:(intros x [<-|[]]; reflexivity) ltac:(apply rising_ok; reflexivity)
    uneven_rows).
  destruct H with (k := KInt) (v := [0; 1; 5]) as (out & E & _ & S); [|reflexivity|].
  { exists 4. split; [reflexivity|]. intros i f F. assert (K : 0 <= i < 3) by (apply (znth_range uneven_rows); eauto).
    assert (X : i = 0 \/ i = 1 \/ i = 2) by lia. destruct X as [->|[->| ->]]; cbn in F; apply some_inj in F; subst f; (split; [reflexivity|]; intros t T;
      assert (X : t = 0 \/ t = 1 \/ t = 2 \/ t = 3) by lia; destruct X as [->|[->|[->| ->]]]; reflexivity). }
  destruct (S 0 (1 / 2)%Q eq_refl) as (pos & neg & _ & N & _ & _ & R). destruct (R 0 ltac:(cbn; lia)) as (x & y & _ & Y & _ & Sl). clear R S H.
  destruct (stack_far uneven_rows (fun k => at_ [0; 2; 5 # 2]%Q k) (fun i => at_ (map (seconds KInt) [0; 1; 5]%Z) (3 - 1)%Z - at_ (map (seconds KInt) [0; 1; 5]%Z) i)%Q 1 (1 / 2) 0) as (v & V & Sv).
  { intros k K. change (zlen uneven_rows) with 3 in *. assert (X : k = 0 \/ k = 1 \/ k = 2) by lia. destruct X as [->|[->| ->]]; split; vm_compute; congruence. }
  assert (U := slant_unique _ _ _ _ _ _ _ Sl Sv). vm_compute in V. apply some_inj in V. subst v.
  vm_compute in E. injection E as <-. vm_compute in N. apply some_inj in N. subst neg. vm_compute in Y. apply some_inj in Y. subst y. vm_compute in U. discriminate.
Qed.
Print Assumptions C86_uneven_refuted.
(** The order of the dimensions should not matter: with time first the data is taken for its
    transpose. *)
Definition time_first (n m : Z) (l : list Q) : patch Q :=
  mkPatch (mkCm ["time"; "distance"] [("distance", rng 0 2 m); ("time", rng 0 1 n)] [("distance", ["distance"]); ("time", ["time"])]) (mkNd [n; m] l).
Theorem C86_order_refuted :
  wf_patch (time_first 3 2 [1; 2; 3; 4; 5; 6]%Q) /\ pt_taup [2]%Q (time_first 3 2 [1; 2; 3; 4; 5; 6]%Q) = Err CoordDataError /\
  wf_patch (time_first 2 2 [1; 2; 3; 4]%Q) /\ wf_patch (section 2 2 [1; 3; 2; 4]%Q) /\
  (forall i j, 0 <= i < 2 -> 0 <= j < 2 -> nd_get (p_data (time_first 2 2 [1; 2; 3; 4]%Q)) [i; j] = nd_get (p_data (section 2 2 [1; 3; 2; 4]%Q)) [j; i]) /\
  slants (pt_taup [2]%Q (time_first 2 2 [1; 2; 3; 4]%Q)) = [[3; 0]; [1; 0]]%Q /\ slants (pt_taup [2]%Q (section 2 2 [1; 3; 2; 4]%Q)) = [[2; 0]; [1; 0]]%Q.
Proof.
  split; [apply patch_okb_ok; vm_compute; reflexivity|]. split; [vm_compute; reflexivity|]. split; [apply patch_okb_ok; vm_compute; reflexivity|]. split; [apply patch_okb_ok; vm_compute; reflexivity|].
  split; [|split; vm_compute; reflexivity].
  intros i j I J. assert (X : i = 0 \/ i = 1) by lia. assert (Y : j = 0 \/ j = 1) by lia. destruct X as [->| ->]; destruct Y as [->| ->]; reflexivity.
Qed.
Print Assumptions C86_order_refuted.
(** Distances that fall: samples before the beginning are taken from the end of the trace. *)
Theorem C86_descending_refuted :
  let p := mkPatch (mkCm ["distance"; "time"] [("distance", rng 2 (-2) 2); ("time", rng 0 1 4)] [("distance", ["distance"]); ("time", ["time"])]) (mkNd [2; 4] [0; 0; 0; 0; 0; 0; 0; 5]%Q) in
  wf_patch p /\ slants (pt_taup [2]%Q p) = [[0; 0; 0; 0]; [5; 0; 0; 0]]%Q.
Proof. split; [apply patch_okb_ok; vm_compute; reflexivity|vm_compute; reflexivity]. Qed.
Print Assumptions C86_descending_refuted.
