(** Proofs for the arguments of filters (C88). *)
From Verif Require Import Base BaseFacts CoordModel NdModel FrameModel CmModel CmProofs CmProofs13 MuteModel MuteProofs MuteProofs2 UnitsModel UnitsSpec MoveProofs MoveProofs5 EdgeModel EdgeSpec.
From Coq Require Import Strings.String QArith Qabs Lqa Lia.
Local Open Scope Z_scope.
Local Open Scope list_scope.

Lemma dim_index {A} (p : patch A) d ax m : dimension p d ax m -> index_of d (cm_dims (p_cm p)) = Some ax.
Proof. intros (N & E & _). apply index_of_nth; assumption. Qed.
Lemma dim_assoc {A} (p : patch A) d ax m : dimension p d ax m -> assoc d (cm_coords (p_cm p)) = Some m.
Proof. intros (_ & _ & E). exact E. Qed.
Lemma rate_ok m st : step_is m st -> exists sr, sampling_rate m = Ok sr /\ (sr == 1 / st)%Q.
Proof. intros (r & -> & E). eexists. split; [reflexivity|]. rewrite E. reflexivity. Qed.
Lemma relative x st sr : ~ (st == 0)%Q -> (sr == 1 / st)%Q -> (x / ((1 # 2) * sr) == 2 * x * st)%Q.
Proof. intros N ->. field. exact N. Qed.
Lemma pass_open {A} units d a b (p : patch A) ax m st : dimension p d ax m -> step_is m st -> is_null a && is_null b = false ->
  plain (farg_of a) -> plain (farg_of b) ->
  exists sr, (sr == 1 / st)%Q /\
    pt_pass_filter units [(d, [a; b])] p = do s <- get_sos sr (number (farg_of a)) (number (farg_of b)); Ok (ax, s).
Proof.
  intros D S N Pa Pb. destruct (rate_ok m st S) as (sr & E & Q). exists sr. split; [exact Q|].
  unfold pt_pass_filter, check_kwargs. rewrite N. cbn [bind]. cbv beta iota. rewrite (dim_index _ _ _ _ D), (dim_assoc _ _ _ _ D), E.
  assert (F : filter_units (farg_of a) (farg_of b) units = Ok (number (farg_of a), number (farg_of b))).
  { unfold filter_units. destruct (farg_of a), (farg_of b); try contradiction; reflexivity. }
  rewrite F. cbn [bind fst snd]. reflexivity.
Qed.
Lemma outside_true x st sr : (0 < st)%Q -> (sr == 1 / st)%Q -> (x < 0 \/ 1 < 2 * x * st)%Q -> outside (Some (x / ((1 # 2) * sr)))%Q = true.
Proof.
  intros P E H. pose proof (relative x st sr ltac:(lra) E) as R. cbn [outside]. apply Bool.orb_true_iff. destruct H as [H|H].
  - left. apply Qltb_lt. rewrite R. assert (0 < (- x) * st)%Q by (apply Qmult_lt_0_compat; lra). lra.
  - right. apply Qltb_lt. rewrite R. exact H.
Qed.
Lemma outside_false x st sr : (0 < st)%Q -> (sr == 1 / st)%Q -> (0 <= x)%Q -> (2 * x * st <= 1)%Q -> outside (Some (x / ((1 # 2) * sr)))%Q = false.
Proof.
  intros P E H1 H2. pose proof (relative x st sr ltac:(lra) E) as R. cbn [outside]. apply Bool.orb_false_iff. split; apply Qltb_ge; rewrite R; [|exact H2].
  assert (0 <= x * st)%Q by (apply Qmult_le_0_compat; lra). lra.
Qed.
Lemma inner_true x st sr : (0 < st)%Q -> (sr == 1 / st)%Q -> (0 < x)%Q -> (2 * x * st < 1)%Q -> inner (x / ((1 # 2) * sr)) = true.
Proof.
  intros P E H1 H2. pose proof (relative x st sr ltac:(lra) E) as R. apply Bool.andb_true_iff. split; apply Qltb_lt; rewrite R; [|exact H2].
  assert (0 < x * st)%Q by (apply Qmult_lt_0_compat; lra). lra.
Qed.
Lemma inner_false x st sr : (0 < st)%Q -> (sr == 1 / st)%Q -> (x == 0 \/ 2 * x * st == 1)%Q -> inner (x / ((1 # 2) * sr)) = false.
Proof.
  intros P E H. pose proof (relative x st sr ltac:(lra) E) as R. apply Bool.andb_false_iff. destruct H as [H|H]; [left|right]; apply Qltb_ge; rewrite R; [rewrite H|rewrite H]; lra.
Qed.
Lemma ordered x y st sr : (0 < st)%Q -> (sr == 1 / st)%Q -> (x < y)%Q -> Qle_bool (y / ((1 # 2) * sr)) (x / ((1 # 2) * sr)) = false.
Proof.
  intros P E H. destruct (Qle_bool _ _) eqn:K; [|reflexivity]. apply Qle_bool_iff in K. rewrite !(relative _ st sr) in K by (lra || exact E).
  assert (0 < (y - x) * st)%Q by (apply Qmult_lt_0_compat; lra). lra.
Qed.
Lemma unordered x y st sr : (0 < st)%Q -> (sr == 1 / st)%Q -> (y <= x)%Q -> Qle_bool (y / ((1 # 2) * sr)) (x / ((1 # 2) * sr)) = true.
Proof.
  intros P E H. apply Qle_bool_iff. rewrite !(relative _ st sr) by (lra || exact E).
  assert (0 <= (x - y) * st)%Q by (apply Qmult_le_0_compat; lra). lra.
Qed.

Lemma pass_band {A} units d (p : patch A) ax m st lo hi : dimension p d ax m -> step_is m st -> (0 < st)%Q ->
  (0 < lo)%Q -> (lo < hi)%Q -> (2 * hi * st < 1)%Q ->
  exists l h, pt_pass_filter units [(d, [BArg (FNum lo); BArg (FNum hi)])] p = Ok (ax, Band l h) /\ (l == 2 * lo * st)%Q /\ (h == 2 * hi * st)%Q.
Proof.
  intros D S P H1 H2 H3. destruct (pass_open units d (BArg (FNum lo)) (BArg (FNum hi)) p ax m st D S eq_refl I I) as (sr & E & ->).
  assert (H4 : (2 * lo * st < 1)%Q). { assert (0 < (hi - lo) * st)%Q by (apply Qmult_lt_0_compat; lra). lra. }
  exists (lo / ((1 # 2) * sr))%Q, (hi / ((1 # 2) * sr))%Q. split; [|split; apply relative; (lra || exact E)].
  unfold get_sos. cbn [farg_of number option_map]. unfold check_range. rewrite (outside_false lo st sr P E) by lra. rewrite (outside_false hi st sr P E) by lra.
  rewrite (ordered lo hi st sr P E H2). cbn [bind]. unfold iir. rewrite (inner_true lo st sr P E) by lra. rewrite (inner_true hi st sr P E) by lra. reflexivity.
Qed.
Lemma pass_high {A} units d (p : patch A) ax m st x o : dimension p d ax m -> step_is m st -> (0 < st)%Q ->
  (0 < x)%Q -> (2 * x * st < 1)%Q -> o = BDots \/ o = BArg FNone ->
  (exists l, pt_pass_filter units [(d, [BArg (FNum x); o])] p = Ok (ax, High l) /\ (l == 2 * x * st)%Q) /\
  (exists l, pt_pass_filter units [(d, [o; BArg (FNum x)])] p = Ok (ax, Low l) /\ (l == 2 * x * st)%Q).
Proof.
  intros D S P H1 H2 O. assert (Po : farg_of o = FNone) by (destruct O as [->| ->]; reflexivity). split.
  - destruct (pass_open units d (BArg (FNum x)) o p ax m st D S eq_refl I) as (sr & E & ->); [rewrite Po; exact I|].
    exists (x / ((1 # 2) * sr))%Q. split; [|apply relative; (lra || exact E)]. rewrite Po.
    unfold get_sos. cbn [farg_of number option_map]. unfold check_range. rewrite (outside_false x st sr P E) by lra. cbn [outside bind].
    unfold iir. rewrite (inner_true x st sr P E) by lra. reflexivity.
  - destruct (pass_open units d o (BArg (FNum x)) p ax m st D S) as (sr & E & ->); [destruct (is_null o); reflexivity|rewrite Po; exact I|exact I|].
    exists (x / ((1 # 2) * sr))%Q. split; [|apply relative; (lra || exact E)]. rewrite Po.
    unfold get_sos. cbn [farg_of number option_map]. unfold check_range. rewrite (outside_false x st sr P E) by lra. cbn [outside bind].
    unfold iir. rewrite (inner_true x st sr P E) by lra. reflexivity.
Qed.
Lemma pass_refused {A} units d (p : patch A) ax m st a b : dimension p d ax m -> step_is m st -> (0 < st)%Q ->
  plain a -> plain b ->
  (exists x, (number a = Some x \/ number b = Some x) /\ (x < 0 \/ 1 < 2 * x * st)%Q) \/
  (exists x y, number a = Some x /\ number b = Some y /\ (y <= x)%Q) ->
  pt_pass_filter units [(d, [BArg a; BArg b])] p = Err FilterValueError.
Proof.
  intros D S P Pa Pb H.
  destruct (pass_open units d (BArg a) (BArg b) p ax m st D S) as (sr & E & ->); [|exact Pa|exact Pb|].
  { destruct a, b; try reflexivity; try contradiction. exfalso. destruct H as [(x & [H|H] & _)|(x & y & H & _)]; discriminate. }
  unfold get_sos, check_range. cbn [farg_of]. destruct H as [(x & [H|H] & O)|(x & y & H1 & H2 & L)].
  - rewrite H. cbn [option_map]. rewrite (outside_true x st sr P E O). reflexivity.
  - rewrite H. cbn [option_map]. rewrite (outside_true x st sr P E O). destruct (outside _); reflexivity.
  - rewrite H1, H2. cbn [option_map]. rewrite (unordered x y st sr P E L). destruct (outside _); [reflexivity|]. destruct (outside _); reflexivity.
Qed.
Lemma pass_ends {A} units d (p : patch A) ax m st x : dimension p d ax m -> step_is m st -> (0 < st)%Q -> (0 < x)%Q -> (2 * x * st <= 1)%Q ->
  pt_pass_filter units [(d, [BArg (FNum 0); BArg (FNum x)])] p = Err ValueError /\
  pt_pass_filter units [(d, [BArg (FNum 0); BArg FNone])] p = Err ValueError /\
  ((2 * x * st == 1)%Q -> forall y, (0 < y)%Q -> (y < x)%Q ->
   pt_pass_filter units [(d, [BArg (FNum y); BArg (FNum x)])] p = Err ValueError /\
   pt_pass_filter units [(d, [BArg FNone; BArg (FNum x)])] p = Err ValueError).
Proof.
  intros D S P H1 H2. split; [|split].
  - destruct (pass_open units d (BArg (FNum 0)) (BArg (FNum x)) p ax m st D S eq_refl I I) as (sr & E & ->).
    unfold get_sos. cbn [farg_of number option_map]. unfold check_range. rewrite (outside_false 0 st sr P E) by lra. rewrite (outside_false x st sr P E) by lra.
    rewrite (ordered 0 x st sr P E H1). cbn [bind]. unfold iir. rewrite (inner_false 0 st sr P E) by (left; reflexivity). reflexivity.
  - destruct (pass_open units d (BArg (FNum 0)) (BArg FNone) p ax m st D S eq_refl I I) as (sr & E & ->).
    unfold get_sos. cbn [farg_of number option_map]. unfold check_range. rewrite (outside_false 0 st sr P E) by lra. cbn [outside bind].
    unfold iir. rewrite (inner_false 0 st sr P E) by (left; reflexivity). reflexivity.
  - intros H3 y H4 H5. assert (H6 : (2 * y * st < 1)%Q). { assert (0 < (x - y) * st)%Q by (apply Qmult_lt_0_compat; lra). lra. } split.
    + destruct (pass_open units d (BArg (FNum y)) (BArg (FNum x)) p ax m st D S eq_refl I I) as (sr & E & ->).
      unfold get_sos. cbn [farg_of number option_map]. unfold check_range. rewrite (outside_false y st sr P E) by lra. rewrite (outside_false x st sr P E) by lra.
      rewrite (ordered y x st sr P E H5). cbn [bind]. unfold iir. rewrite (inner_false x st sr P E) by (right; exact H3). rewrite Bool.andb_false_r. reflexivity.
    + destruct (pass_open units d (BArg FNone) (BArg (FNum x)) p ax m st D S eq_refl I I) as (sr & E & ->).
      unfold get_sos. cbn [farg_of number option_map]. unfold check_range. rewrite (outside_false x st sr P E) by lra. cbn [outside bind].
      unfold iir. rewrite (inner_false x st sr P E) by (right; exact H3). reflexivity.
Qed.
Lemma pass_dots {A} units d (p : patch A) ax m st a b : dimension p d ax m -> step_is m st -> In (a, b) [(BDots, BDots); (BDots, BArg FNone); (BArg FNone, BDots)] ->
  pt_pass_filter units [(d, [a; b])] p = Err AssertionError.
Proof.
  intros D S H. assert (F : farg_of a = FNone /\ farg_of b = FNone /\ is_null a && is_null b = false).
  { destruct H as [H|[H|[H|[]]]]; injection H as <- <-; repeat split; reflexivity. }
  destruct F as (Fa & Fb & N). destruct (pass_open units d a b p ax m st D S N) as (sr & E & ->); [rewrite Fa; exact I|rewrite Fb; exact I|].
  rewrite Fa, Fb. reflexivity.
Qed.
Lemma pass_descending {A} units d (p : patch A) ax m st a b x : dimension p d ax m -> step_is m st -> (st < 0)%Q ->
  plain a -> plain b -> number a = Some x \/ number b = Some x -> (0 < x)%Q ->
  pt_pass_filter units [(d, [BArg a; BArg b])] p = Err FilterValueError.
Proof.
  intros D S P Pa Pb H X.
  destruct (pass_open units d (BArg a) (BArg b) p ax m st D S) as (sr & E & ->); [|exact Pa|exact Pb|].
  { destruct a, b; try reflexivity; try contradiction. exfalso. destruct H; discriminate. }
  assert (O : outside (Some (x / ((1 # 2) * sr)))%Q = true).
  { cbn [outside]. apply Bool.orb_true_iff. left. apply Qltb_lt. rewrite (relative x st sr) by (lra || exact E).
    assert (0 < x * (- st))%Q by (apply Qmult_lt_0_compat; lra). lra. }
  unfold get_sos, check_range. cbn [farg_of]. destruct H as [H|H]; rewrite H; cbn [option_map]; rewrite O; [reflexivity|]. clear O. destruct (outside _); reflexivity.
Qed.
Lemma pass_units {A} units d (p : patch A) ax m a b x y : dimension p d ax m -> filter_units a b units = Ok (x, y) -> (x <> None \/ y <> None) ->
  pt_pass_filter units [(d, [BArg a; BArg b])] p =
  pt_pass_filter units [(d, [BArg (match x with Some v => FNum v | None => FNone end); BArg (match y with Some v => FNum v | None => FNone end)])] p.
Proof.
  intros D F N. unfold pt_pass_filter, check_kwargs.
  assert (K : is_null (BArg a) && is_null (BArg b) = false).
  { destruct a, b; try reflexivity. exfalso. cbn in F. injection F as <- <-. destruct N as [N|N]; apply N; reflexivity. }
  rewrite K. assert (K2 : is_null (BArg (match x with Some v => FNum v | None => FNone end)) && is_null (BArg (match y with Some v => FNum v | None => FNone end)) = false).
  { destruct x, y; try reflexivity. destruct N as [N|N]; contradiction. }
  rewrite K2. cbn [bind]. cbv beta iota. rewrite (dim_index _ _ _ _ D), (dim_assoc _ _ _ _ D). cbn [farg_of]. rewrite F.
  assert (F2 : filter_units (match x with Some v => FNum v | None => FNone end) (match y with Some v => FNum v | None => FNone end) units = Ok (x, y)) by (destruct x, y; reflexivity).
  rewrite F2. reflexivity.
Qed.
Lemma pass_arguments {A} units (p : patch A) :
  (forall kw, zlen kw <> 1 -> pt_pass_filter units kw p = Err FilterValueError) /\
  (forall d l, zlen l <> 2 -> pt_pass_filter units [(d, l)] p = Err FilterValueError) /\
  (forall d, pt_pass_filter units [(d, [BArg FNone; BArg FNone])] p = Err FilterValueError) /\
  (forall d a b, ~ (a = BArg FNone /\ b = BArg FNone) -> ~ In d (cm_dims (p_cm p)) -> pt_pass_filter units [(d, [a; b])] p = Err CoordError) /\
  (forall d ax m a b, dimension p d ax m -> ~ (a = FNone /\ b = FNone) -> plain a -> plain b ->
     (forall r, m <> M1 (CRange r)) -> (forall n, m <> M1 (CPart n)) -> pt_pass_filter units [(d, [BArg a; BArg b])] p = Err CoordDataError).
Proof.
  split; [|split; [|split; [|split]]].
  - intros kw N. unfold pt_pass_filter, check_kwargs. destruct kw as [|[d l] [|e t]]; [reflexivity|contradiction N; reflexivity|]. destruct l as [|a [|b [|c l]]]; reflexivity.
  - intros d l N. unfold pt_pass_filter, check_kwargs. destruct l as [|a [|b [|c l]]]; try reflexivity. contradiction N. reflexivity.
  - reflexivity.
  - intros d a b N I. unfold pt_pass_filter, check_kwargs. assert (K : is_null a && is_null b = false).
    { destruct a as [|[]], b as [|[]]; try reflexivity. contradiction N. split; reflexivity. }
    rewrite K. cbn [bind]. cbv beta iota. apply index_of_None in I. rewrite I. reflexivity.
  - intros d ax m a b D N Pa Pb R1 R2. unfold pt_pass_filter, check_kwargs. assert (K : is_null (BArg a) && is_null (BArg b) = false).
    { destruct a, b; try reflexivity. contradiction N. split; reflexivity. }
    rewrite K. cbn [bind]. cbv beta iota. rewrite (dim_index _ _ _ _ D), (dim_assoc _ _ _ _ D). cbn [farg_of].
    assert (F : filter_units a b units = Ok (number a, number b)) by (unfold filter_units; destruct a, b; try contradiction; reflexivity).
    rewrite F. cbn [bind]. assert (S : sampling_rate m = Err CoordDataError).
    { destruct m as [c| |]; try reflexivity. destruct c; try reflexivity; [contradiction (R1 _ eq_refl)|contradiction (R2 _ eq_refl)]. }
    rewrite S. reflexivity.
Qed.

Lemma notch_one_ok {A} (p : patch A) units d ax m st x : dimension p d ax m -> step_is m st -> (0 < st)%Q -> (0 <= x)%Q -> (2 * x * st <= 1)%Q ->
  exists w, notch_one (p_cm p) units (d, FNum x) = Ok (ax, w) /\ (w == 2 * x * st)%Q.
Proof.
  intros D S P H1 H2. destruct (rate_ok m st S) as (sr & E & Q). unfold notch_one. cbn [fst snd]. rewrite (dim_index _ _ _ _ D), (dim_assoc _ _ _ _ D).
  cbn [bind]. rewrite E. cbn [bind]. assert (W : (2 * x / sr == 2 * x * st)%Q) by (rewrite Q; field; lra).
  assert (L1 : Qltb ((1 # 2) * sr) x = false).
  { apply Qltb_ge. rewrite Q. apply (Qmult_le_r _ _ (2 * st)); [lra|]. setoid_replace ((1 # 2) * (1 / st) * (2 * st))%Q with 1%Q by (field; lra). lra. }
  assert (L2 : Qltb 1 (2 * x / sr) = false) by (apply Qltb_ge; rewrite W; exact H2).
  assert (L3 : Qltb (2 * x / sr) 0 = false).
  { apply Qltb_ge. rewrite W. assert (0 <= x * st)%Q by (apply Qmult_le_0_compat; lra). lra. }
  exists (2 * x / sr)%Q. split; [|exact W]. destruct (units d); rewrite L1, L2, L3; reflexivity.
Qed.
Definition notch_loop {A} (units : string -> option unit) (p : patch A) :=
  fix loop (l : list (string * farg)) : result (list (nat * Q)) :=
     match l with
     | [] => Ok []
     | e :: t => do x <- notch_one (p_cm p) units e; do xs <- loop t; Ok (x :: xs)
     end.
Lemma notch_loop_ok {A} units (p : patch A) : forall kw,
  (forall d x, In (d, x) kw -> exists ax m st v, dimension p d ax m /\ step_is m st /\ (0 < st)%Q /\ x = FNum v /\ (0 <= v)%Q /\ (2 * v * st <= 1)%Q) ->
  exists out, notch_loop units p kw = Ok out /\
    Forall2 (fun e o => exists m st v, dimension p (fst e) (fst o) m /\ step_is m st /\ snd e = FNum v /\ (snd o == 2 * v * st)%Q) kw out.
Proof.
  induction kw as [|[d x] kw IH]; intro H; [exists []; split; [reflexivity|constructor]|].
  destruct (H d x (or_introl eq_refl)) as (ax & m & st & v & D & S & P & -> & B1 & B2).
  destruct (notch_one_ok p units d ax m st v D S P B1 B2) as (w & W & We). destruct IH as (out & O & F); [intros d' x' I; apply H; right; exact I|].
  exists ((ax, w) :: out). split; [|constructor; [exists m, st, v; repeat split; (exact S || exact We || apply D)|exact F]].
  cbn [notch_loop]. rewrite W. cbn [bind]. fold (notch_loop units p). rewrite O. reflexivity.
Qed.
Lemma notch_ok {A} units (p : patch A) kw : kw <> [] ->
  (forall d x, In (d, x) kw -> exists ax m st v, dimension p d ax m /\ step_is m st /\ (0 < st)%Q /\ x = FNum v /\ (0 <= v)%Q /\ (2 * v * st <= 1)%Q) ->
  exists out, pt_notch_filter units kw p = Ok out /\
    Forall2 (fun e o => exists m st v, dimension p (fst e) (fst o) m /\ step_is m st /\ snd e = FNum v /\ (snd o == 2 * v * st)%Q) kw out.
Proof.
  intros N H. unfold pt_notch_filter. rewrite named_all; [|exact N|].
  - cbn [bind]. apply notch_loop_ok, H.
  - intros [d x] I. destruct (H d x I) as (ax & m & st & v & (_ & D & _) & _). cbn [fst]. eapply nth_error_In, D.
Qed.
Lemma notch_refused {A} units (p : patch A) d ax m st x : dimension p d ax m -> step_is m st ->
  ((0 < st)%Q -> (1 < 2 * x * st)%Q -> pt_notch_filter units [(d, FNum x)] p = Err FilterValueError) /\
  ((0 < st)%Q -> (x < 0)%Q -> pt_notch_filter units [(d, FNum x)] p = Err ValueError) /\
  ((st < 0)%Q -> (0 < x)%Q -> pt_notch_filter units [(d, FNum x)] p = Err FilterValueError).
Proof.
  intros D S. destruct (rate_ok m st S) as (sr & E & Q).
  assert (K : pt_notch_filter units [(d, FNum x)] p = do o <- notch_one (p_cm p) units (d, FNum x); Ok [o]).
  { unfold pt_notch_filter. rewrite named_all; [cbn [bind]; destruct (notch_one _ _ _); reflexivity|discriminate|].
    intros e [<-|[]]. destruct D as (_ & D & _). eapply nth_error_In, D. }
  rewrite K. clear K. unfold notch_one. cbn [fst snd]. rewrite (dim_index _ _ _ _ D), (dim_assoc _ _ _ _ D), E. split; [|split].
  - intros P H. assert (L : Qltb ((1 # 2) * sr) x = true).
    { apply Qltb_lt. rewrite Q. apply (Qmult_lt_r _ _ (2 * st)); [lra|]. setoid_replace ((1 # 2) * (1 / st) * (2 * st))%Q with 1%Q by (field; lra). lra. }
    destruct (units d); cbn [bind]; rewrite L; reflexivity.
  - intros P H. assert (L : Qltb ((1 # 2) * sr) x = false).
    { apply Qltb_ge. rewrite Q. apply (Qmult_le_r _ _ (2 * st)); [lra|]. setoid_replace ((1 # 2) * (1 / st) * (2 * st))%Q with 1%Q by (field; lra).
      assert (0 < (- x) * st)%Q by (apply Qmult_lt_0_compat; lra). lra. }
    assert (L2 : Qltb (2 * x / sr) 0 = true).
    { apply Qltb_lt. setoid_replace (2 * x / sr)%Q with (2 * x * st)%Q by (rewrite Q; field; lra). assert (0 < (- x) * st)%Q by (apply Qmult_lt_0_compat; lra). lra. }
    destruct (units d); cbn [bind]; rewrite L, L2, Bool.orb_true_r; reflexivity.
  - intros P H. assert (L : Qltb ((1 # 2) * sr) x = true).
    { apply Qltb_lt. rewrite Q. apply Qlt_trans with 0%Q; [|exact H]. assert (X : (1 / st < 0)%Q); [|lra].
      apply (Qmult_lt_r _ _ (- st)); [lra|]. setoid_replace (1 / st * - st)%Q with (- (1))%Q by (field; lra). lra. }
    destruct (units d); cbn [bind]; rewrite L; reflexivity.
Qed.
