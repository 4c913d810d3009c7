(** Lemmas behind MoveProps.v: hampel_filter on patches (C82). *)
From Verif Require Import Base BaseFacts CoordModel CoordSpec CoordProofs CoordProofs5 NdModel NdSpec NdProofs FrameModel ChunkModel ChunkProofs3
  CmModel CmSpec CmProofs CmProofs2 CmProofs3 CmProofs13 TaperProofs2 MergeProofs7 MuteModel MuteProofs2 CalcModel CalcProofs CalcProofs3 MoveModel MoveSpec MoveProofs MoveProofs2 MoveProofs3 MoveProofs4 MoveProofs5.
From Coq Require Import Strings.String ZifyBool QArith Qabs Lqa Sorting.Permutation Sorting.Sorted.
Local Open Scope Z_scope.
Local Open Scope list_scope.

Lemma threshold_pos h : (0 < h)%Q -> qle h 0 = false.
Proof. intros H. unfold qle. destruct (Qle_bool h 0) eqn:E; [|reflexivity]. apply Qle_bool_iff in E. lra. Qed.
Lemma threshold_neg h : (h <= 0)%Q -> qle h 0 = true.
Proof. intros H. apply Qle_bool_iff. exact H. Qed.

Lemma box_meds sizes (a : nd Q) : List.length sizes = List.length (nd_shape a) -> Forall (fun w => 1 <= w) sizes ->
  forall x, wf_nd x -> nd_shape x = nd_shape a -> exists m, opt_result (box_median MReflect 0 sizes x) = Ok m /\ box_medians MReflect 0 sizes x m /\ wf_nd m /\ nd_shape m = nd_shape x /\
     ((forall ix v, nd_get x ix = Some v -> (0 <= v)%Q) -> forall ix v, nd_get m ix = Some v -> (0 <= v)%Q).
Proof.
  intros L P x W S. destruct (box_median_ok MReflect 0 sizes x W) as (m & E & H); [congruence|exact P|]. rewrite E. exists m. split; [reflexivity|]. split; [exact H|].
  split; [apply H|]. split; [apply H|]. apply box_nonneg with sizes. exact H.
Qed.
Lemma despiked_wf R least h a b : despiked R least h a b -> wf_nd b /\ nd_shape b = nd_shape a.
Proof. intros (m & dev & s & _ & _ & _ & _ & W & S & _). auto. Qed.

Lemma hampel_exact bn t h samples kw (p : patch Q) : wf_patch p -> windows_given p samples true 3 kw -> (0 < h)%Q -> t <> Ints ->
  exists q sizes, pt_hampel bn t (Some h) samples false kw p = Ok q /\ asked_sizes p samples true kw sizes /\ p_cm q = p_cm p /\
    despiked (box_medians MReflect 0 sizes) (eps t) h (p_data p) (p_data q).
Proof.
  intros W G H T. destruct (window_size_ok p samples true 3 kw W ltac:(lia) G) as (s & E & A & P & _).
  unfold pt_hampel. rewrite (threshold_pos h H), E. cbn [bind].
  assert (L : List.length s = List.length (nd_shape (p_data p))) by (rewrite (dims_shape p W); apply A).
  destruct (hampel_ok t h (fun x => opt_result (box_median MReflect 0 s x)) (box_medians MReflect 0 s) (p_data p) (wp_nd _ W) H) as (b & Eb & D); [apply box_meds; assumption|].
  destruct (despiked_wf _ _ _ _ _ D) as [Wb Sb].
  exists (mkPatch (p_cm p) b), s. split; [|auto]. destruct t; [| |congruence]; rewrite Eb; cbn [bind]; apply same_shape; assumption.
Qed.
Lemma hampel_approx bn t h samples kw (p : patch Q) : wf_patch p -> windows_given p samples true 3 kw -> (0 < h)%Q -> t <> Ints ->
  (forall sizes ax w n, asked_sizes p samples true kw sizes -> nth_error sizes ax = Some w -> nth_error (nd_shape (p_data p)) ax = Some n -> 1 < w -> w <= n) ->
  exists q sizes, pt_hampel bn t (Some h) samples true kw p = Ok q /\ asked_sizes p samples true kw sizes /\ p_cm q = p_cm p /\
    despiked (medians_in_turn bn 0 sizes) (eps t) h (p_data p) (p_data q).
Proof.
  intros W G H T B. destruct (window_size_ok p samples true 3 kw W ltac:(lia) G) as (s & E & A & P & O). specialize (O eq_refl).
  unfold pt_hampel. rewrite (threshold_pos h H), E. cbn [bind].
  assert (L : List.length s = List.length (nd_shape (p_data p))) by (rewrite (dims_shape p W); apply A).
  destruct (hampel_ok t h (separable_median bn s) (medians_in_turn bn 0 s) (p_data p) (wp_nd _ W) H) as (b & Eb & D).
  { intros x Wx Sx. rewrite separable_eq. apply turns_ok; [exact Wx|]. intros k w Ew Gw. rewrite Sx. cbn [Nat.add].
    assert (K : (k < List.length (nd_shape (p_data p)))%nat) by (rewrite <- L; apply nth_error_Some; congruence).
    apply nth_error_Some in K. destruct (nth_error (nd_shape (p_data p)) k) as [n|] eqn:En; [|congruence].
    split; [rewrite Forall_forall in O; apply O; eapply nth_error_In, Ew|]. exists n. split; [reflexivity|]. eapply B; eassumption. }
  destruct (despiked_wf _ _ _ _ _ D) as [Wb Sb].
  exists (mkPatch (p_cm p) b), s. split; [|auto]. destruct t; [| |congruence]; rewrite Eb; cbn [bind]; apply same_shape; assumption.
Qed.

(** ** Integers *)
Lemma to_z_inject z : to_z (inject_Z z) = z.
Proof. unfold to_z, inject_Z. cbn. apply Z.div_1_r. Qed.
Lemma rint_inject z : rint (inject_Z z) = z.
Proof. unfold rint, inject_Z. cbn [Qnum Qden]. rewrite Z.div_1_r, Z.mod_1_r. reflexivity. Qed.
Lemma f32_small z : Z.abs z <= 2 ^ 24 -> f32 z = z.
Proof.
  intros H. unfold f32. destruct (Z.log2 (Z.abs z) - 23 <=? 0) eqn:E; [reflexivity|].
  assert (X : Z.log2 (Z.abs z) <= 24) by (rewrite <- (Z.log2_pow2 24) by lia; apply Z.log2_le_mono, H).
  assert (Y : Z.log2 (Z.abs z) = 24) by lia.
  assert (U : Z.abs z = 2 ^ 24).
  { assert (V : 0 < Z.abs z) by (destruct (Z.eq_dec (Z.abs z) 0) as [K|K]; [rewrite K in Y; discriminate|lia]).
    pose proof (Z.log2_spec _ V) as [S _]. rewrite Y in S. lia. }
  assert (z = 2 ^ 24 \/ z = - 2 ^ 24) as [-> | ->] by lia; reflexivity.
Qed.
Lemma nd_map_id (f : Q -> Q) (a : nd Q) : (forall x, In x (nd_flat a) -> f x = x) -> nd_map f a = a.
Proof. intros H. unfold nd_map. destruct a as [s l]. cbn in *. f_equal. rewrite <- (map_id l) at 2. apply map_ext_in. exact H. Qed.
Lemma box_in sizes (a b : nd Q) v : wf_nd a -> box_medians MReflect 0 sizes a b -> In v (nd_flat b) -> In v (nd_flat a).
Proof.
  intros Wa (Wb & Sb & H) I. destruct (flat_get b v Wb I) as (ix & Ix & E). rewrite Sb in Ix.
  destruct (H ix Ix) as (w & v' & Ww & Sw & C & R & E'). rewrite E in E'. injection E' as <-. apply ranked_in in R.
  destruct (flat_get w v Ww R) as (ox & Io & Eo). rewrite Sw in Io. destruct (C ox Io) as (x & Ex & [(kx & _ & _ & G)|(K & _)]); [|discriminate].
  rewrite Eo in Ex. injection Ex as <-. eapply get_flat, G.
Qed.
Lemma despiked_in (R : nd Q -> nd Q -> Prop) least h (a b : nd Q) : (forall x m v, R x m -> In v (nd_flat m) -> x = a -> In v (nd_flat a)) -> despiked R least h a b ->
  forall v, In v (nd_flat b) -> In v (nd_flat a).
Proof.
  intros K (m & dev & s & Rm & _ & _ & _ & Wb & Sb & H) v I. destruct (flat_get b v Wb I) as (ix & Ix & E). rewrite Sb in Ix.
  destruct (H ix Ix) as (x & y & z & Ex & Ey & _ & _ & U & V).
  destruct (Qlt_le_dec (h * (if Qeq_bool z 0 then least else z)) (Qabs (x - y))) as [C|C].
  - specialize (U C). rewrite E in U. injection U as <-. eapply K; [exact Rm|eapply get_flat, Ey|reflexivity].
  - specialize (V C). rewrite E in V. injection V as <-. eapply get_flat, Ex.
Qed.
Lemma hampel_ints bn h samples kw (p : patch Q) : wf_patch p -> windows_given p samples true 3 kw -> (0 < h)%Q ->
  (forall x, In x (nd_flat (p_data p)) -> exists z, x = inject_Z z /\ Z.abs z <= 2 ^ 24) ->
  exists q sizes, pt_hampel bn Ints (Some h) samples false kw p = Ok q /\ asked_sizes p samples true kw sizes /\ p_cm q = p_cm p /\
    despiked (box_medians MReflect 0 sizes) (1 # 2 ^ 23) h (p_data p) (p_data q) /\
    forall x, In x (nd_flat (p_data q)) -> exists z, x = inject_Z z.
Proof.
  intros W G H T. destruct (window_size_ok p samples true 3 kw W ltac:(lia) G) as (s & E & A & P & _).
  unfold pt_hampel. rewrite (threshold_pos h H), E. cbn [bind].
  assert (L : List.length s = List.length (nd_shape (p_data p))) by (rewrite (dims_shape p W); apply A).
  rewrite nd_map_id. 2:{ intros x I. destruct (T x I) as (z & -> & B). rewrite to_z_inject, f32_small by exact B. reflexivity. }
  destruct (hampel_ok Ints h (fun x => opt_result (box_median MReflect 0 s x)) (box_medians MReflect 0 s) (p_data p) (wp_nd _ W) H) as (b & Eb & D); [apply box_meds; assumption|].
  rewrite Eb. cbn [bind].
  assert (X : forall v, In v (nd_flat b) -> exists z, v = inject_Z z).
  { intros v I. apply (despiked_in _ _ _ _ _ (fun x m u Rm Iu Ex => box_in s (p_data p) m u (wp_nd _ W) ltac:(subst x; exact Rm) Iu) D) in I. destruct (T v I) as (z & -> & _). eauto. }
  rewrite nd_map_id. 2:{ intros x I. destruct (X x I) as (z & ->). rewrite rint_inject. reflexivity. }
  destruct (despiked_wf _ _ _ _ _ D) as [Wb Sb].
  rewrite same_shape by assumption. exists (mkPatch (p_cm p) b), s. split; [reflexivity|]. split; [exact A|]. split; [reflexivity|]. split; [exact D|exact X].
Qed.

(** ** Refusals *)
Lemma hampel_threshold bn t samples approximate kw (p : patch Q) th : th = None \/ (exists h, th = Some h /\ (h <= 0)%Q) ->
  pt_hampel bn t th samples approximate kw p = Err ParameterError.
Proof. intros [->|(h & -> & H)]; [reflexivity|]. unfold pt_hampel. rewrite (threshold_neg h H). reflexivity. Qed.
Lemma hampel_unknown bn t h samples approximate kw (p : patch Q) d v : (0 < h)%Q -> In (d, v) kw -> ~ In d (cm_dims (p_cm p)) ->
  pt_hampel bn t (Some h) samples approximate kw p = Err ParameterError \/
  pt_hampel bn t (Some h) samples approximate kw p = Err PatchCoordinateError.
Proof.
  intros H I N. unfold pt_hampel. rewrite (threshold_pos h H). unfold window_size. destruct kw as [|e kw]; [destruct I|].
  destruct (named_unknown (cm_dims (p_cm p)) (e :: kw) d v I N) as [-> | ->]; [left|right]; reflexivity.
Qed.
Lemma hampel_one bn t h samples approximate (p : patch Q) d v : (0 < h)%Q -> In d (cm_dims (p_cm p)) ->
  pt_hampel bn t (Some h) samples approximate [(d, v)] p =
  do n <- window_one (p_cm p) samples true 3 (d, v);
  do sizes <- (do ax <- get_axis (p_cm p) d; Ok (put (map (fun _ => 1) (cm_dims (p_cm p))) ax n));
  let a := match t with Ints => nd_map (fun q => inject_Z (f32 (to_z q))) (p_data p) | _ => p_data p end in
  let med := if approximate then separable_median bn sizes else fun x => opt_result (box_median MReflect 0 sizes x) in
  do b <- hampel t h med a;
  new_patch (p_cm p) (match t with Ints => nd_map (fun q => inject_Z (rint q)) b | _ => b end).
Proof.
  intros H I. unfold pt_hampel. rewrite (threshold_pos h H). unfold window_size. rewrite named_all; [|discriminate|intros e [<-|[]]; exact I].
  cbn [bind]. unfold put_sizes. cbn [fold_left bind fst]. destruct (window_one (p_cm p) samples true 3 (d, v)); reflexivity.
Qed.
Lemma hampel_window bn t h samples approximate (p : patch Q) d v : wf_patch p -> (0 < h)%Q -> In d (cm_dims (p_cm p)) ->
  ((forall r, assoc d (cm_coords (p_cm p)) <> Some (M1 (CRange r))) -> pt_hampel bn t (Some h) samples approximate [(d, v)] p = Err CoordError) /\
  (forall r, assoc d (cm_coords (p_cm p)) = Some (M1 (CRange r)) ->
     (if samples then v < 3 \/ v mod 2 = 0 else 0 < r_step r /\ 0 <= v <= 2 * r_step r) ->
     pt_hampel bn t (Some h) samples approximate [(d, v)] p = Err ParameterError).
Proof.
  intros W H I. split.
  - intros N. rewrite hampel_one by assumption. unfold window_one. cbn [fst].
    destruct (assoc d (cm_coords (p_cm p))) as [m|]; [|reflexivity]. destruct m as [c| |]; try reflexivity. destruct c as [r| | |]; try reflexivity. exfalso. apply (N r). reflexivity.
  - intros r E C. rewrite hampel_one by assumption. unfold window_one. cbn [fst snd]. rewrite E. destruct samples.
    + unfold sample_count_samples. cbn [andb bind]. destruct (v <? 3) eqn:Q; [reflexivity|]. destruct C as [C|C]; [lia|]. rewrite C. reflexivity.
    + destruct (sample_count_spec r v false (range_wf _ _ _ W E) (proj1 C) (proj1 (proj2 C))) as (n & B & X). rewrite X. cbn [andb bind].
      destruct (n <? 3) eqn:Q; [reflexivity|]. nia.
Qed.
Lemma turn_err bn l e : fold_left (turn bn) l (Err e) = Err e.
Proof. induction l as [|x l IH]; [reflexivity|]. exact IH. Qed.
Lemma hampel_long bn t h (p : patch Q) d ax r v : wf_patch p -> (0 < h)%Q -> nth_error (cm_dims (p_cm p)) ax = Some d ->
  assoc d (cm_coords (p_cm p)) = Some (M1 (CRange r)) -> 3 <= v -> v mod 2 = 1 -> r_len r < v ->
  pt_hampel bn t (Some h) true true [(d, v)] p = Err ParameterError.
Proof.
  intros W H D E B O L. assert (I : In d (cm_dims (p_cm p))) by (eapply nth_error_In, D). rewrite hampel_one by assumption.
  unfold window_one. cbn [fst snd]. rewrite E. unfold sample_count_samples. cbn [andb bind]. destruct (v <? 3) eqn:Q; [lia|]. rewrite O. change (1 =? 1) with true. cbn [negb andb bind].
  unfold get_axis. rewrite (index_of_nth _ _ _ (wf_dims _ (wp_cm _ W)) D). cbn [bind].
  cbv zeta. set (a := match t with Ints => nd_map (fun q => inject_Z (f32 (to_z q))) (p_data p) | _ => p_data p end). assert (Sa : nd_shape a = nd_shape (p_data p)) by (destruct t; reflexivity).
  pose proof (shape_at p ax d _ W D E) as Sh. cbn [c_len] in Sh. rewrite <- Sa in Sh. clearbody a.
  unfold hampel. assert (X : separable_median bn (put (map (fun _ => 1) (cm_dims (p_cm p))) ax v) a = Err ParameterError); [|rewrite X; reflexivity].
  rewrite separable_eq. assert (Ln : (ax < List.length (cm_dims (p_cm p)))%nat) by (apply nth_error_Some; congruence).
  set (dims := cm_dims (p_cm p)) in *. clearbody dims. clear - Ln Sh L Q.
  assert (Y : forall k ax0, (ax < k)%nat -> nth_error (nd_shape a) (ax0 + ax) = Some (r_len r) ->
    fold_left (turn bn) (combine (put (map (fun _ => 1) (repeat tt k)) ax v) (seq ax0 (List.length (put (map (fun _ => 1) (repeat tt k)) ax v)))) (Ok a) = Err ParameterError).
  { clear Sh Ln. revert ax. intros ax k. revert ax. induction k as [|k IH]; intros ax ax0 B Sh; [lia|]. destruct ax as [|ax].
    - cbn [repeat map put List.length seq combine fold_left]. unfold turn at 2. cbn [fst snd bind]. assert (U : 1 <? v = true) by lia. rewrite U.
      rewrite Nat.add_0_r in Sh. unfold moving_window. destruct (v <=? 0) eqn:Z0; [lia|]. cbn [operation String.eqb Ascii.eqb Bool.eqb]. rewrite Sh.
      assert (U' : r_len r <? v = true) by lia. rewrite U'. cbn [bind]. apply turn_err.
    - cbn [repeat map put List.length seq combine fold_left]. unfold turn at 2. cbn [fst snd bind]. change (1 <? 1) with false. cbn iota. apply IH; [lia|].
      replace (S ax0 + ax)%nat with (ax0 + S ax)%nat by lia. exact Sh. }
  specialize (Y (List.length dims) O Ln Sh). rewrite <- Y. clear. assert (Z0 : map (fun _ => 1) dims = map (fun _ => 1) (repeat tt (List.length dims))).
  { induction dims as [|x dims IH]; [reflexivity|]. cbn. f_equal. exact IH. }
  rewrite Z0. reflexivity.
Qed.
