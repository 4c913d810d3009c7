(** Lemmas behind TrendProps.v: detrend and kurtosis of patches. *)
From Verif Require Import Base BaseFacts CoordModel CoordSpec CoordProofs CoordProofs3 CoordProofs5 NdModel NdSpec NdProofs FrameModel ChunkModel ChunkProofs2
  CmModel CmSpec CmProofs CmProofs3 CmProofs13 TaperProofs2 ReadProofs MuteModel MuteProofs2 CalcModel CalcProofs CalcProofs3
  MoveModel MoveSpec MoveProofs MoveProofs5 TrendModel TrendSpec TrendProofs.
From Coq Require Import Strings.String ZifyBool QArith Qabs Lqa.
Local Open Scope Z_scope.
Local Open Scope list_scope.

Lemma along_lines {A C} (f : list A -> list C) ax (a : nd A) n : wf_nd a -> nth_error (nd_shape a) ax = Some n ->
  (forall vs, zlen (f vs) = zlen vs) -> exists b, along f ax a = Some b /\ by_line (fun u v => v = f u) ax a b.
Proof.
  intros W E FL. destruct (along_ok f ax a n W E) as (b & Eb & Wb & S & H); [intros vs <-; apply FL|].
  exists b. split; [exact Eb|]. split; [exact Wb|]. split; [exact S|]. intros ix u I L. exists (f u). split; [|reflexivity].
  pose proof (proj1 L) as EL. rewrite E in EL. apply some_inj in EL. subst n. split; [rewrite FL, S; exact E|]. intros k K. rewrite FL in K.
  assert (P : inb (nd_shape a) (put ix ax k)) by (apply (inb_put _ _ _ (zlen u)) with (zlen u); auto; rewrite (put_nth _ _ _ E); exact I).
  assert (X : nth_error (put ix ax k) ax = Some k).
  { apply nth_put_same. destruct (inb_axis _ _ _ _ I E) as (i & Ei & _). apply nth_error_Some. congruence. }
  apply (H _ _ u P X). destruct L as [L1 L2]. split; [exact L1|]. intros j J. rewrite put_put. apply L2, J.
Qed.
Lemma by_line_weaken {A C} (R S : list A -> list C -> Prop) ax a b : (forall f g, R f g -> S f g) -> by_line R ax a b -> by_line S ax a b.
Proof. intros H (W & E & L). split; [exact W|]. split; [exact E|]. intros ix f I K. destruct (L ix f I K) as (g & G & Q). exists g. auto. Qed.
Lemma fits_shape {A B} (p : patch A) (b : nd B) : wf_patch p -> wf_nd b -> nd_shape b = nd_shape (p_data p) ->
  new_patch (p_cm p) b = Ok (mkPatch (p_cm p) b).
Proof.
  intros W Wb S. apply new_patch_ok; [apply (wp_cm _ W)|exact Wb|apply (wp_some _ W)|rewrite S; apply (wp_shape _ W)].
Qed.
Lemma axis_shape {A} (p : patch A) ax d : wf_patch p -> nth_error (cm_dims (p_cm p)) ax = Some d ->
  exists n, nth_error (nd_shape (p_data p)) ax = Some n.
Proof.
  intros W E. destruct (nth_error (nd_shape (p_data p)) ax) as [n|] eqn:F; [eauto|]. exfalso.
  apply nth_error_None in F. rewrite <- (f2_len (wp_shape _ W)) in F. apply nth_error_None in F. congruence.
Qed.
Lemma axis_index {A} (p : patch A) ax d : wf_patch p -> nth_error (cm_dims (p_cm p)) ax = Some d -> index_of d (cm_dims (p_cm p)) = Some ax.
Proof. intros W E. apply index_of_nth; [apply (wf_dims _ (wp_cm _ W))|exact E]. Qed.

(** ** Detrending *)
Lemma parse_known ty off : In (ty, off) trend_names ->
  exists t, parse_trend ty = Some t /\ forall f, best off f (detrend_line t f).
Proof.
  intros [E|[E|[E|[E|[]]]]]; injection E as <- <-; [exists Linear|exists Linear|exists Constant|exists Constant];
    (split; [reflexivity|]); first [exact linear_best|exact constant_best].
Qed.
Lemma detrend_ok (p : patch Q) ax d ty off : wf_patch p -> nth_error (cm_dims (p_cm p)) ax = Some d -> In (ty, off) trend_names ->
  exists q, pt_detrend d ty p = Ok q /\ p_cm q = p_cm p /\
    by_line (fun f g => best off f g /\ (total_of g == 0)%Q) ax (p_data p) (p_data q).
Proof.
  intros W E N. destruct (parse_known _ _ N) as (t & T & B). destruct (axis_shape p ax d W E) as [n Sn].
  destruct (along_lines (detrend_line t) ax (p_data p) n (wp_nd _ W) Sn (detrend_len t)) as (b & Eb & L).
  exists (mkPatch (p_cm p) b). unfold pt_detrend. rewrite (axis_index _ _ _ W E), T, Eb. cbn [opt_result bind].
  split; [apply fits_shape; [exact W|apply L|apply L]|]. split; [reflexivity|].
  revert L. apply by_line_weaken. intros f g ->. split; [apply B|apply detrend_sum].
Qed.
Lemma detrend_refused (p : patch Q) d ty : (~ In d (cm_dims (p_cm p)) -> pt_detrend d ty p = Err ParameterError) /\
  (In d (cm_dims (p_cm p)) -> (forall off, ~ In (ty, off) trend_names) -> pt_detrend d ty p = Err ValueError).
Proof.
  split.
  - intros N. unfold pt_detrend. rewrite (proj2 (index_of_None d _) N). reflexivity.
  - intros I N. unfold pt_detrend. destruct (proj2 (index_of_In d _) I) as [k ->]. destruct (parse_trend ty) as [t|] eqn:E; [|reflexivity].
    exfalso. unfold parse_trend in E. destruct (String.eqb_spec ty "linear"); [apply (N less_line); left; congruence|].
    destruct (String.eqb_spec ty "l"); [apply (N less_line); right; left; congruence|].
    destruct (String.eqb_spec ty "constant"); [apply (N less_constant); right; right; left; congruence|].
    destruct (String.eqb_spec ty "c"); [apply (N less_constant); right; right; right; left; congruence|]. discriminate.
Qed.
(** Patches whose lines differ by a trend come out the same. *)
Lemma detrend_same (p p' : patch Q) ax d ty off q q' : wf_patch p -> wf_patch p' -> nth_error (cm_dims (p_cm p)) ax = Some d ->
  nth_error (cm_dims (p_cm p')) ax = Some d -> In (ty, off) trend_names ->
  by_line off ax (p_data p) (p_data p') -> pt_detrend d ty p = Ok q -> pt_detrend d ty p' = Ok q' ->
  forall ix x y, nd_get (p_data q) ix = Some x -> nd_get (p_data q') ix = Some y -> (x == y)%Q.
Proof.
  intros W W' E E' N L Q Q'. destruct (detrend_ok p ax d ty off W E N) as (q1 & Q1 & _ & B). rewrite Q in Q1. injection Q1 as <-.
  destruct (detrend_ok p' ax d ty off W' E' N) as (q2 & Q2 & _ & B'). rewrite Q' in Q2. injection Q2 as <-.
  destruct L as (_ & SL & L). destruct B as (Wq & SB & B). destruct B' as (Wq' & SB' & B').
  intros ix x y X Y. assert (I : inb (nd_shape (p_data p)) ix) by (rewrite <- SB; eapply nd_get_inb; eauto).
  destruct (axis_shape p ax d W E) as [n Sn]. destruct (line_total (p_data p) ax n ix (wp_nd _ W) Sn I) as (f & _ & Lf).
  { destruct (inb_axis _ _ _ _ I Sn) as (i & _ & K). lia. }
  destruct (L ix f I Lf) as (f' & Lf' & Off). destruct (B ix f I Lf) as (g & Lg & Bg & _).
  rewrite <- SL in I. destruct (B' ix f' I Lf') as (g' & Lg' & Bg' & _). rewrite SL in I.
  assert (G : Forall2 Qeq g g').
  { destruct N as [K|[K|[K|[K|[]]]]]; injection K as <- <-;
      [apply (line_unique f'); [apply line_shift with f|]..|apply (constant_unique f'); [apply constant_shift with f|]|apply (constant_unique f'); [apply constant_shift with f|]]; assumption. }
  destruct (inb_axis _ _ _ _ I Sn) as (i & Ei & K). assert (i < zlen g /\ zlen g = zlen g').
  { split; [destruct Lg as [Lg _]; rewrite SB, Sn in Lg; apply some_inj in Lg; lia|]. unfold zlen. f_equal. apply (f2_len G). }
  destruct Lg as [_ Lg]. destruct Lg' as [_ Lg']. specialize (Lg i ltac:(lia)). specialize (Lg' i ltac:(lia)).
  rewrite (put_nth _ _ _ Ei) in Lg, Lg'. rewrite X in Lg. rewrite Y in Lg'. symmetry in Lg, Lg'.
  revert Lg Lg'. unfold znth. destruct (i <? 0); [discriminate|]. generalize (Z.to_nat i). clear - G.
  induction G as [|a b l m H HH IH]; intros [|k]; cbn; try discriminate; [|apply IH]. intros A B. apply some_inj in A, B. subst. exact H.
Qed.
(** Once is enough. *)
Lemma detrend_again (p : patch Q) ax d ty off q r : wf_patch p -> nth_error (cm_dims (p_cm p)) ax = Some d -> In (ty, off) trend_names ->
  pt_detrend d ty p = Ok q -> pt_detrend d ty q = Ok r ->
  forall ix x y, nd_get (p_data q) ix = Some x -> nd_get (p_data r) ix = Some y -> (x == y)%Q.
Proof.
  intros W E N Q R. destruct (detrend_ok p ax d ty off W E N) as (q1 & Q1 & C & B). rewrite Q in Q1. injection Q1 as <-.
  assert (Wq : wf_patch q).
  { destruct B as (Wb & SB & _). assert (K := fits_shape p (p_data q) W Wb SB). destruct q as [cq dq]. cbn [p_cm p_data] in *. subst cq.
    apply (new_patch_ok (p_cm p) dq); [apply (wp_cm _ W)|exact Wb|apply (wp_some _ W)|rewrite SB; apply (wp_shape _ W)]. }
  eapply (detrend_same p q ax d ty off q r); eauto; [congruence|]. revert B. apply by_line_weaken. intros f g [[O _] _]. exact O.
Qed.
