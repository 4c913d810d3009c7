(** Properties C65 and C66: tapering the ends of a dimension, and tapering to ranges.
    Model: TaperModel.v. Specification vocabulary: TaperSpec.v. *)
From Verif Require Import Base BaseFacts CoordModel CoordSpec CoordProofs NdModel NdSpec FrameModel ChunkModel CmModel CmSpec CmProofs18 CmProps
  TaperModel TaperSpec TaperProofs TaperProofs2 TaperProofs3 TaperProofs4.
From Coq Require Import Strings.String QArith Qabs ZifyBool Lia Lqa.
Local Open Scope Z_scope.
Local Open Scope list_scope.
Local Open Scope string_scope.

(** * C65: tapering the ends *)

(** Along a dimension with ascending labels the samples whose label is at most the
    given amount from the first one are multiplied by the first half of a window of
    twice their number, those at most the given amount from the last one by the second
    half; all others are unchanged, and so are all labels. Amounts are in the units of
    the labels or fractions of their range; either may be missing. *)
Theorem C65_taper : forall A (mul : A -> Q -> A) win (p : patch A) wt w ax d c mn mx lo hi k1 k2,
  wf_patch p -> win wt = Some w -> window w ->
  nth_error (cm_dims (p_cm p)) ax = Some d -> assoc d (cm_coords (p_cm p)) = Some (M1 c) ->
  upward c -> 2 <= c_len c -> is_least mn (c_ints c) -> is_greatest mx (c_ints c) ->
  start_samples c mn mx lo k1 -> end_samples c mn mx hi k2 ->
  k1 + k2 <= c_len c -> k2 < c_len c ->
  exists q, pt_taper mul win p wt [(d, (lo, hi))] = Ok q /\ changed_along p q ax (tapered mul w (c_len c) k1 k2).
Proof. intros A. exact taper_changes. Qed.
Print Assumptions C65_taper.

(** The taper is refused if the two ends overlap or the end takes all samples. *)
Theorem C65_overlap : forall A (mul : A -> Q -> A) win (p : patch A) wt w ax d c mn mx lo hi k1 k2,
  wf_patch p -> win wt = Some w ->
  nth_error (cm_dims (p_cm p)) ax = Some d -> assoc d (cm_coords (p_cm p)) = Some (M1 c) ->
  upward c -> 2 <= c_len c -> is_least mn (c_ints c) -> is_greatest mx (c_ints c) ->
  start_samples c mn mx lo k1 -> end_samples c mn mx hi k2 ->
  c_len c < k1 + k2 \/ c_len c <= k2 ->
  pt_taper mul win p wt [(d, (lo, hi))] = Err ParameterError.
Proof. intros A. exact taper_refuses. Qed.
Print Assumptions C65_overlap.

(** So it is if the start reaches past the dimension. *)
Theorem C65_too_long : forall A (mul : A -> Q -> A) win (p : patch A) wt w ax d c mn mx v a hi k2,
  wf_patch p -> win wt = Some w ->
  nth_error (cm_dims (p_cm p)) ax = Some d -> assoc d (cm_coords (p_cm p)) = Some (M1 c) ->
  upward c -> 2 <= c_len c -> is_least mn (c_ints c) -> is_greatest mx (c_ints c) ->
  amounts c (mx - mn) v a -> reach c mn mx <= a -> end_samples c mn mx hi k2 ->
  pt_taper mul win p wt [(d, (Some v, hi))] = Err ParameterError.
Proof. intros A. exact taper_too_long. Qed.
Print Assumptions C65_too_long.

(** Unknown windows and names that are no dimension are refused. *)
Theorem C65_unknown : forall A (mul : A -> Q -> A) win (p : patch A) wt,
  (forall kw, win wt = None -> pt_taper mul win p wt kw = Err ParameterError) /\
  (forall w d v, win wt = Some w -> ~ In d (cm_dims (p_cm p)) -> pt_taper mul win p wt [(d, v)] = Err ParameterError).
Proof. intros A mul win p wt. split; [exact (taper_no_window mul win p wt)|exact (taper_no_dim mul win p wt)]. Qed.
Print Assumptions C65_unknown.

(** ** Witnesses *)
Definition ramp (n : Z) : list Q := map (fun i => i # Z.to_pos n)%Q (zrange n).
Lemma ramp_window : window ramp.
Proof.
  intros n P. unfold ramp. split; [rewrite zlen_map, zlen_zrange; lia|].
  intros y J. apply in_map_iff in J as (i & <- & J). apply in_zrange in J. unfold Qle. cbn. lia.
Qed.
Definition ramps (s : string) : option (Z -> list Q) := if String.eqb s "ramp" then Some ramp else None.
(** Labels 0, 2, 4, .. along x; two rows along y. *)
Definition ones (n : Z) : patch Q :=
  mkPatch (mkCm ["y"; "x"] [("y", rng 10 (-1) 2); ("x", rng 0 2 n)] [("y", ["y"]); ("x", ["x"])])
    (mkNd [2; n] (repeat 1%Q (Z.to_nat (2 * n)))).
(** Labels 0, 1, 5, 9 as an array. *)
Definition uneven : patch Q :=
  mkPatch (mkCm ["x"] [("x", M1 (CMono KInt [0; 1; 5; 9]))] [("x", ["x"])]) (mkNd [4] (repeat 1%Q 4)).

Example C65_applies :
  wf_patch (ones 6) /\ wf_patch uneven /\ window ramp /\
  (exists q, pt_taper Qmult ramps (ones 6) "ramp" [("x", (Some (TAbs 3), Some (TFrac 1 5)))] = Ok q /\
     map Qred (nd_flat (p_data q)) = [0; 1 # 4; 1; 1; 1 # 2; 3 # 4; 0; 1 # 4; 1; 1; 1 # 2; 3 # 4]%Q) /\
  (exists q, pt_taper Qmult ramps uneven "ramp" [("x", (Some (TAbs 1), Some (TAbs 1)))] = Ok q /\
     map Qred (nd_flat (p_data q)) = [0; 1 # 4; 1; 1 # 2]%Q) /\
  start_samples (CRange (mkRange KInt 0 12 2 6)) 0 10 (Some (TAbs 3)) 2 /\
  end_samples (CRange (mkRange KInt 0 12 2 6)) 0 10 (Some (TFrac 1 5)) 2 /\
  pt_taper Qmult ramps (ones 6) "ramp" [("x", (Some (TAbs 6), Some (TAbs 4)))] = Err ParameterError /\
  reach (CRange (mkRange KInt 0 12 2 6)) 0 10 = 12 /\
  pt_taper Qmult ramps (ones 6) "ramp" [("x", (Some (TAbs 12), None))] = Err ParameterError /\
  (exists q, pt_taper Qmult ramps (ones 6) "ramp" [("x", (Some (TAbs 11), None))] = Ok q).
Proof.
  split; [apply patch_okb_ok; vm_compute; reflexivity|]. split; [apply patch_okb_ok; vm_compute; reflexivity|].
  split; [exact ramp_window|]. split; [eexists; split; vm_compute; reflexivity|]. split; [eexists; split; vm_compute; reflexivity|].
  split; [exists 3; split; [constructor|]; split; [vm_compute; split; [discriminate|reflexivity]|vm_compute; reflexivity]|].
  split; [exists 2; split; [apply am_int; [reflexivity|lia|lia]|]; split; [lia|vm_compute; reflexivity]|].
  split; [vm_compute; reflexivity|]. split; [reflexivity|]. split; [vm_compute; reflexivity|]. eexists. vm_compute. reflexivity.
Qed.

(** REFUTED: a taper of length zero changes nothing. At the start it takes the first
    sample; at the end it is refused, because minus zero counts from the start. *)
Theorem C65_zero_refuted : exists (p : patch Q), wf_patch p /\
  (exists q, pt_taper Qmult ramps p "ramp" [("x", (Some (TAbs 0), None))] = Ok q /\
     nd_get (p_data p) [0; 0] = Some 1%Q /\ exists y, nd_get (p_data q) [0; 0] = Some y /\ (y == 0)%Q) /\
  pt_taper Qmult ramps p "ramp" [("x", (None, Some (TAbs 0)))] = Err ParameterError.
Proof.
  exists (ones 6). split; [apply patch_okb_ok; vm_compute; reflexivity|]. split; [|vm_compute; reflexivity].
  eexists. split; [vm_compute; reflexivity|]. split; [reflexivity|]. eexists. split; vm_compute; reflexivity.
Qed.
Print Assumptions C65_zero_refuted.

(** REFUTED: the ends of a dimension can be tapered whatever the order of its labels.
    If they descend, what is at the start of the labels is at the end of the array, and
    a taper of one end is refused. *)
Theorem C65_descending_refuted : exists (p : patch Q), wf_patch p /\
  assoc "x" (cm_coords (p_cm p)) = Some (rng 10 (-2) 6) /\
  pt_taper Qmult ramps p "ramp" [("x", (Some (TAbs 3), None))] = Err ParameterError /\
  pt_taper Qmult ramps p "ramp" [("x", (None, Some (TAbs 3)))] = Err ParameterError.
Proof.
  exists (mkPatch (mkCm ["x"] [("x", rng 10 (-2) 6)] [("x", ["x"])]) (mkNd [6] (repeat 1%Q 6))).
  split; [apply patch_okb_ok; vm_compute; reflexivity|]. repeat split; vm_compute; reflexivity.
Qed.
Print Assumptions C65_descending_refuted.

(** * C66: tapering to ranges *)

(** Each sequence gives four samples: the first at or after each value, or each sample
    number, with the ends of the dimension around a sequence of two, and the first or
    last sample for a missing value. From the first to the second the factor is the
    rising half of a window, up to the third it is one, up to the fourth it falls, and
    it is zero elsewhere. Factors of several sequences are added. Every sample is
    multiplied by the factor of its position; labels are unchanged. *)
Theorem C66_range : forall A (mul : A -> Q -> A) win (p : patch A) wt w ax d r rel smp arg ls sets,
  wf_patch p -> win wt = Some w -> window w ->
  nth_error (cm_dims (p_cm p)) ax = Some d -> assoc d (cm_coords (p_cm p)) = Some (M1 (CRange r)) ->
  0 < r_step r < 20000000000 -> sequences arg ls -> Forall2 (asked r rel smp) ls sets -> Forall (in_order (r_len r)) sets ->
  exists q f, pt_taper_range mul win p wt false rel smp [(d, arg)] = Ok q /\
    changed_along p q ax (fun i x => mul x (f i)) /\ forall i, 0 <= i < r_len r -> (f i == total w sets i)%Q.
Proof. intros A. exact range_keeps. Qed.
Print Assumptions C66_range.

(** Inverted, the factor is the greatest factor along the dimension minus the factor
    at the position. *)
Theorem C66_invert : forall A (mul : A -> Q -> A) win (p : patch A) wt w ax d r rel smp arg ls sets,
  wf_patch p -> win wt = Some w -> window w ->
  nth_error (cm_dims (p_cm p)) ax = Some d -> assoc d (cm_coords (p_cm p)) = Some (M1 (CRange r)) ->
  0 < r_step r < 20000000000 -> sequences arg ls -> Forall2 (asked r rel smp) ls sets -> Forall (in_order (r_len r)) sets ->
  exists q f m, pt_taper_range mul win p wt true rel smp [(d, arg)] = Ok q /\
    changed_along p q ax (fun i x => mul x (f i)) /\
    (exists i, 0 <= i < r_len r /\ (m == total w sets i)%Q) /\
    (forall i, 0 <= i < r_len r -> (total w sets i <= m)%Q) /\
    forall i, 0 <= i < r_len r -> (f i == m - total w sets i)%Q.
Proof. intros A. exact range_inverts. Qed.
Print Assumptions C66_invert.

(** With one sequence whose second sample is before its third, that is one minus the
    factor: outside the range all is kept. *)
Theorem C66_invert_one : forall A (mul : A -> Q -> A) win (p : patch A) wt w ax d r rel smp l i1 i2 i3 i4,
  wf_patch p -> win wt = Some w -> window w ->
  nth_error (cm_dims (p_cm p)) ax = Some d -> assoc d (cm_coords (p_cm p)) = Some (M1 (CRange r)) ->
  0 < r_step r < 20000000000 -> asked r rel smp l (i1, i2, i3, i4) -> in_order (r_len r) (i1, i2, i3, i4) -> i2 < i3 ->
  exists q f, pt_taper_range mul win p wt true rel smp [(d, TOne l)] = Ok q /\
    changed_along p q ax (fun i x => mul x (f i)) /\
    forall i, 0 <= i < r_len r -> (f i == 1 - range_factor w i1 i2 i3 i4 i)%Q.
Proof.
  intros A mul win p wt w ax d r rel smp l i1 i2 i3 i4 W Ww Wd D C U As O L.
  destruct (range_inverts mul win p wt w ax d r rel smp (TOne l) [l] [(i1, i2, i3, i4)] W Ww Wd D C U) as (q & f & m & E & Ch & X & M & F).
  - right. exists l. split; reflexivity.
  - constructor; [exact As|constructor].
  - constructor; [exact O|constructor].
  - exists q, f. split; [exact E|]. split; [exact Ch|]. intros i B. rewrite (F i B), (one_max w (r_len r) i1 i2 i3 i4 m Wd O L X M).
    cbn [total fold_right]. ring.
Qed.
Print Assumptions C66_invert_one.

(** Sequences of other lengths, no sequence at all, and values that go back are refused. *)
Theorem C66_refused : forall A (mul : A -> Q -> A) win (p : patch A) wt w ax d r inv rel smp,
  wf_patch p -> win wt = Some w ->
  nth_error (cm_dims (p_cm p)) ax = Some d -> assoc d (cm_coords (p_cm p)) = Some (M1 (CRange r)) -> 0 < r_step r < 20000000000 ->
  (forall l, zlen l <> 2 -> zlen l <> 4 -> pt_taper_range mul win p wt inv rel smp [(d, TOne l)] = Err ParameterError) /\
  pt_taper_range mul win p wt inv rel smp [(d, TMany [])] = Err ParameterError /\
  (forall l i1 i2 i3 i4, asked r rel smp l (i1, i2, i3, i4) -> i2 < i1 \/ i4 < i3 ->
     pt_taper_range mul win p wt inv rel smp [(d, TOne l)] = Err ValueError).
Proof.
  intros A mul win p wt w ax d r inv rel smp W Ww D C U. split; [|split].
  - intros l. exact (range_wrong_length mul win p wt w ax d r inv rel smp W Ww D C U l).
  - exact (range_nothing mul win p wt w ax d r inv rel smp W Ww D C U).
  - exact (range_backwards mul win p wt w ax d r inv rel smp W Ww D C U).
Qed.
Print Assumptions C66_refused.

Example C66_applies :
  wf_patch (ones 6) /\ window ramp /\
  (exists q, pt_taper_range Qmult ramps (ones 6) "ramp" false false false [("x", TOne [Some 1; Some 3; Some 6; Some 10])] = Ok q /\
     map Qred (nd_flat (p_data q)) = [0; 0; 1; 1 # 5; 0; 0; 0; 0; 1; 1 # 5; 0; 0]%Q) /\
  (exists q, pt_taper_range Qmult ramps (ones 6) "ramp" true false true [("x", TOne [Some 2; Some (-2)])] = Ok q /\
     map Qred (nd_flat (p_data q)) = [1; 4 # 5; 0; 0; 4 # 5; 1; 1; 4 # 5; 0; 0; 4 # 5; 1]%Q) /\
  asked (mkRange KInt 0 12 2 6) false false [Some 1; Some 3; Some 6; Some 10] (1, 2, 3, 5) /\ in_order 6 (1, 2, 3, 5) /\
  asked (mkRange KInt 0 12 2 6) false true [Some 2; Some (-2)] (0, 2, 4, 6) /\
  pt_taper_range Qmult ramps (ones 6) "ramp" false false true [("x", TOne [Some 3; Some 2; Some 4; Some 5])] = Err ValueError.
Proof.
  split; [apply patch_okb_ok; vm_compute; reflexivity|]. split; [exact ramp_window|].
  split; [eexists; split; vm_compute; reflexivity|]. split; [eexists; split; vm_compute; reflexivity|].
  split.
  { assert (X : forall x i, 0 <= i < 6 -> 0 <= x <= 10 -> 2 * (i - 1) < x <= 2 * i -> asked_or (mkRange KInt 0 12 2 6) false false 0 (Some x) i
       /\ asked_or (mkRange KInt 0 12 2 6) false false 5 (Some x) i).
    { intros x i B Bx L. assert (first_at_or_after (r_values (mkRange KInt 0 12 2 6)) x i).
      { assert (W : wf_range (mkRange KInt 0 12 2 6)) by (vm_compute; repeat split; discriminate).
        split; [exact B|]. split; intros j y E; apply (range_znth _ _ _ W) in E; cbn in E; lia. }
      split; (split; [vm_compute; split; apply Bx|assumption]). }
    apply asked_four; apply X; lia. }
  split; [cbn; lia|]. split; [apply asked_two; split; cbn; lia|]. vm_compute. reflexivity.
Qed.

(** REFUTED: a missing value means the end of the dimension. For the third and fourth
    value it means the last sample, which is then outside the range: its factor is zero. *)
Theorem C66_none_refuted : exists (p : patch Q) q, wf_patch p /\
  pt_taper_range Qmult ramps p "ramp" false false false [("x", TOne [None; None; None; None])] = Ok q /\
  nd_get (p_data p) [0; 5] = Some 1%Q /\ nd_get (p_data q) [0; 4] = Some 1%Q /\ nd_get (p_data q) [0; 5] = Some 0%Q.
Proof.
  exists (ones 6). eexists. split; [apply patch_okb_ok; vm_compute; reflexivity|]. split; [vm_compute; reflexivity|]. vm_compute. auto.
Qed.
Print Assumptions C66_none_refuted.

(** REFUTED: inverting keeps what is outside the range. If the second and third value
    ask for the same sample no factor is one, and all samples are made smaller. *)
Theorem C66_invert_refuted : exists (p : patch Q) q y, wf_patch p /\
  pt_taper_range Qmult ramps p "ramp" true false true [("x", TOne [Some 1; Some 3; Some 3; Some 5])] = Ok q /\
  nd_get (p_data p) [0; 0] = Some 1%Q /\ nd_get (p_data q) [0; 0] = Some y /\ (y == 1 # 5)%Q.
Proof.
  exists (ones 6). eexists. eexists. split; [apply patch_okb_ok; vm_compute; reflexivity|]. split; [vm_compute; reflexivity|].
  split; [reflexivity|]. split; [vm_compute; reflexivity|]. vm_compute. reflexivity.
Qed.
Print Assumptions C66_invert_refuted.

(** REFUTED: no sample grows. Where two ranges overlap the factors add up to two. *)
Theorem C66_overlap_refuted : exists (p : patch Q) q y, wf_patch p /\
  pt_taper_range Qmult ramps p "ramp" false false true [("x", TMany [[Some 0; Some 0; Some 4; Some 4]; [Some 2; Some 2; Some 5; Some 5]])] = Ok q /\
  nd_get (p_data p) [0; 2] = Some 1%Q /\ nd_get (p_data q) [0; 2] = Some y /\ (y == 2)%Q.
Proof.
  exists (ones 6). eexists. eexists. split; [apply patch_okb_ok; vm_compute; reflexivity|]. split; [vm_compute; reflexivity|].
  split; [reflexivity|]. split; [vm_compute; reflexivity|]. vm_compute. reflexivity.
Qed.
Print Assumptions C66_overlap_refuted.
