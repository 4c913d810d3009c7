(** Proofs for centred and normalized data (C92). *)
From Verif Require Import Base BaseFacts CoordModel NdModel NdSpec NdProofs FrameModel CmModel CmSpec CmProofs CmProofs3 CmProofs13 CalcModel CalcProofs MoveModel MoveSpec MoveProofs TaperProofs2 TrendSpec TrendModel TrendProofs TrendProofs2
  ScaleModel ScaleSpec.
From Coq Require Import Strings.String QArith Qabs Lqa Lia Sorted Permutation.
Local Open Scope Z_scope.
Local Open Scope list_scope.

Lemma present_known l : present l = known l.
Proof. induction l as [|[x|] t IH]; [reflexivity| |]; cbn; [f_equal|]; exact IH. Qed.
Lemma known_map (f : Q -> Q) l : known (map (option_map f) l) = map f (known l).
Proof. induction l as [|[x|] t IH]; [reflexivity| |]; cbn; [f_equal|]; exact IH. Qed.
Lemma known_none {A} (l : list A) : known (map (fun _ => None) l) = [].
Proof. induction l; [reflexivity|]. exact IHl. Qed.
Lemma none_all l : known l = [] -> map (fun _ => None) l = l.
Proof. induction l as [|[x|] t IH]; intro H; [reflexivity|discriminate|]. cbn. f_equal. apply IH, H. Qed.
Lemma elementwise_map (R : Q -> Q -> Prop) f l : (forall x, In x (known l) -> R x (f x)) -> elementwise R l (map (option_map f) l).
Proof.
  unfold elementwise. induction l as [|[x|] t IH]; intro H; cbn; constructor; cbn; auto.
  - apply H. left. reflexivity.
  - apply IH. intros y Y. apply H. right. exact Y.
Qed.
Lemma elementwise_none R l : known l = [] -> elementwise R l (map (fun _ => None) l).
Proof. unfold elementwise. induction l as [|[x|] t IH]; intro H; cbn; constructor; cbn; auto; discriminate. Qed.

Lemma per_line_ok f p d (R : list (option Q) -> list (option Q) -> Prop) : wf_patch p -> In d (cm_dims (p_cm p)) -> (forall vs, zlen (f vs) = zlen vs) -> (forall vs, R vs (f vs)) ->
  exists q, per_line f d p = Ok q /\ each_line p q d R.
Proof.
  intros W I FL H. apply In_nth_error in I as (ax & D). destruct (axis_shape p ax d W D) as [n Sn].
  destruct (along_lines f ax (p_data p) n (wp_nd _ W) Sn FL) as (b & Eb & L).
  exists (mkPatch (p_cm p) b). unfold per_line, get_axis. rewrite (axis_index _ _ _ W D). cbn [bind]. rewrite Eb. cbn [opt_result bind].
  split; [apply fits_shape; [exact W|apply L|apply L]|]. split; [reflexivity|]. exists ax. split; [exact D|].
  revert L. apply by_line_weaken. intros u v ->. apply H.
Qed.
Lemma per_line_refused f p d : ~ In d (cm_dims (p_cm p)) -> per_line f d p = Err CoordError.
Proof. intro N. unfold per_line, get_axis. rewrite (proj2 (index_of_None d _) N). reflexivity. Qed.
Lemma with_present_cases f l : (known l = [] /\ with_present f l = map (fun _ => None) l) \/ (known l <> [] /\ with_present f l = map (option_map (f (known l))) l).
Proof. unfold with_present. rewrite present_known. destruct (known l) as [|x t] eqn:E; [left|right]; split; congruence. Qed.
Lemma with_present_len f l : zlen (with_present f l) = zlen l.
Proof. destruct (with_present_cases f l) as [[_ ->]|[_ ->]]; unfold zlen; rewrite map_length; reflexivity. Qed.
Lemma zlen_mapq {A B} (f : A -> B) l : zlen (map f l) = zlen l.
Proof. unfold zlen. rewrite map_length. reflexivity. Qed.
Lemma shift_total c l : (qsum (map (fun x => x - c) l) == qsum l - c * inject_Z (zlen l))%Q.
Proof.
  rewrite (qsum_ext _ (fun x => x + (- c))%Q) by (intros; ring). rewrite (qsum_plus (fun x => x) (fun _ => - c)%Q), qsum_const, map_id. ring.
Qed.

Lemma demean_line_ok l : exists c, (known l <> [] -> mean_of (known l) c) /\ elementwise (fun x y => y == x - c)%Q l (demean_line l) /\ (total_of (known (demean_line l)) == 0)%Q.
Proof.
  unfold demean_line. destruct (with_present_cases (fun v x => x - qmean v)%Q l) as [[E ->]|[N ->]].
  - exists 0%Q. split; [congruence|]. split; [apply elementwise_none, E|]. rewrite known_none. reflexivity.
  - exists (qmean (known l)). split; [intros _; apply qmean_ok, N|]. split; [apply elementwise_map; intros; reflexivity|].
    rewrite known_map. change (total_of ?x) with (qsum x). rewrite shift_total. pose proof (qmean_ok _ N) as M. unfold mean_of in M. change (total_of (known l)) with (qsum (known l)) in M. rewrite M. ring.
Qed.
Lemma ranked_shift l k v c : ranked l k v -> ranked (map (fun x => x - c)%Q l) k (v - c)%Q.
Proof.
  intros (s & P & S & Zn). exists (map (fun x => x - c)%Q s). split; [apply Permutation_map, P|]. split.
  - clear -S. induction S as [|x t S IH F]; cbn; constructor; [exact IH|]. rewrite Forall_forall in *. intros y I. apply in_map_iff in I as (z & <- & I). specialize (F z I). lra.
  - rewrite znth_map, Zn. reflexivity.
Qed.
Lemma median_middle l : l <> [] -> middle l (bn_median l).
Proof.
  intro N. destruct (bn_reduce_ok (fun q => q) 0 OMedian l) as (x & y & X & Y & M); [discriminate|exact N|]. exists x, y. auto.
Qed.
Lemma demedian_line_ok l : exists c, (known l <> [] -> middle (known l) c /\ middle (known (demedian_line l)) 0) /\ elementwise (fun x y => y == x - c)%Q l (demedian_line l).
Proof.
  unfold demedian_line. destruct (with_present_cases (fun v x => x - bn_median v)%Q l) as [[E ->]|[N ->]].
  - exists 0%Q. split; [congruence|]. apply elementwise_none, E.
  - exists (bn_median (known l)). split; [|apply elementwise_map; intros; reflexivity]. intros _. pose proof (median_middle _ N) as M. split; [exact M|].
    rewrite known_map. destruct M as (x & y & X & Y & M). set (c := bn_median (known l)) in *. clearbody c.
    exists (x - c)%Q, (y - c)%Q. rewrite zlen_mapq. split; [apply ranked_shift, X|]. split; [apply ranked_shift, Y|]. rewrite M. field.
Qed.

Lemma nonzero_pos d : (0 <= d)%Q -> (0 < nonzero d)%Q /\ ((d == 0)%Q -> nonzero d = 1%Q) /\ (~ (d == 0)%Q -> nonzero d = d).
Proof.
  intro P. unfold nonzero. destruct (Qeq_bool d 0) eqn:E; [apply Qeq_bool_iff in E|apply Qeq_bool_neq in E].
  - split; [reflexivity|]. split; [reflexivity|contradiction].
  - split; [|split; [contradiction|reflexivity]]. destruct (Qle_lt_or_eq _ _ P) as [H|H]; [exact H|]. exfalso. apply E. symmetry. exact H.
Qed.
Lemma abs_div x d : (0 < d)%Q -> (Qabs (x / d) == Qabs x / d)%Q.
Proof. intro P. unfold Qdiv. rewrite Qabs_Qmult. rewrite (Qabs_pos (/ d)); [reflexivity|]. apply Qinv_le_0_compat. lra. Qed.
(** What a line becomes when it is divided by [d]. *)
Lemma divided d l : (0 < d)%Q -> elementwise (fun x y => y * d == x)%Q l (map (option_map (fun x => x / d)%Q) l).
Proof. intro P. apply elementwise_map. intros. field. lra. Qed.
Lemma l1_ok l : let d := qsum (map Qabs (present l)) in let w := map (option_map (fun x => x / nonzero d)%Q) l in
  exists c, (0 < c)%Q /\ elementwise (fun x y => y * c == x)%Q l w /\ (all_zero (known l) -> (c == 1)%Q) /\ (~ all_zero (known l) -> (total_of (map Qabs (known w)) == 1)%Q).
Proof.
  cbv zeta. rewrite present_known. set (d := qsum (map Qabs (known l))). assert (P : (0 <= d)%Q) by (apply qsum_nonneg; intros; apply Qabs_nonneg).
  destruct (nonzero_pos d P) as (C & C0 & C1). exists (nonzero d). split; [exact C|]. split; [apply divided, C|].
  assert (AZ : (d == 0)%Q <-> all_zero (known l)).
  { split.
    - intros E x I. assert (A : (Qabs x == 0)%Q) by (apply (qsum_zero Qabs (known l)); [intros; apply Qabs_nonneg|exact E|exact I]). destruct (Qabs_Qle_condition x 0) as [K _]. destruct K; lra.
    - intros A. unfold d. rewrite (qsum_ext _ (fun _ => 0%Q)); [rewrite qsum_const; ring|]. intros x I. rewrite (A x I). reflexivity. }
  split; [intro A; rewrite C0; [reflexivity|apply AZ, A]|]. intro A. assert (D : ~ (d == 0)%Q) by (intro E; apply A, AZ, E).
  rewrite known_map, map_map. change (total_of ?x) with (qsum x). rewrite (qsum_ext _ (fun x => / nonzero d * Qabs x)%Q).
  - rewrite qsum_scale. fold d. rewrite (C1 D). field. exact D.
  - intros x _. rewrite abs_div by exact C. field. lra.
Qed.
Lemma sq_nonneg x : (0 <= x * x)%Q.
Proof. nra. Qed.
Lemma abs_sq x : (Qabs x * Qabs x == x * x)%Q.
Proof. destruct (Qlt_le_dec x 0) as [H|H]; [rewrite Qabs_neg by lra|rewrite Qabs_pos by lra]; ring. Qed.
Lemma l2_ok d l : let s := total_of (squares (known l)) in (0 <= d)%Q -> (d * d == s)%Q ->
  let w := map (option_map (fun x => x / nonzero d)%Q) l in
  exists c, (0 < c)%Q /\ elementwise (fun x y => y * c == x)%Q l w /\ (all_zero (known l) -> (c == 1)%Q) /\ (~ all_zero (known l) -> (total_of (squares (known w)) == 1)%Q).
Proof.
  cbv zeta. intros P R. destruct (nonzero_pos d P) as (C & C0 & C1). exists (nonzero d). split; [exact C|]. split; [apply divided, C|].
  assert (S0 : (total_of (squares (known l)) == 0)%Q <-> all_zero (known l)).
  { change (total_of ?x) with (qsum x). split.
    - intros E x I. assert (A : (x * x == 0)%Q) by (apply (qsum_zero (fun x => x * x)%Q (known l)); [intros; apply sq_nonneg|exact E|exact I]).
      apply Qmult_integral in A as [A|A]; exact A.
    - intros A. unfold squares. rewrite (qsum_ext _ (fun _ => 0%Q)); [rewrite qsum_const; ring|]. intros x I. rewrite (A x I). reflexivity. }
  assert (D0 : (d == 0)%Q <-> (total_of (squares (known l)) == 0)%Q). { split; intro E; [rewrite <- R, E; ring|]. rewrite E in R. apply Qmult_integral in R as [R|R]; exact R. }
  split; [intro A; rewrite C0; [reflexivity|apply D0, S0, A]|]. intro A. assert (D : ~ (d == 0)%Q) by (intro E; apply A, S0, D0, E).
  rewrite known_map. unfold squares at 1. rewrite map_map. change (total_of ?x) with (qsum x). rewrite (qsum_ext _ (fun x => (/ nonzero d * / nonzero d) * (x * x))%Q).
  - rewrite qsum_scale. rewrite (C1 D). fold (squares (known l)). change (qsum (squares (known l))) with (total_of (squares (known l))). rewrite <- R. field. exact D.
  - intros x _. field. lra.
Qed.
Lemma max_ok l : let w := with_present (fun v x => x / nonzero (qgreatest (map Qabs v)))%Q l in
  exists c, (0 < c)%Q /\ elementwise (fun x y => y * c == x)%Q l w /\ (all_zero (known l) -> (c == 1)%Q) /\
    (~ all_zero (known l) -> (exists y, In y (known w) /\ (Qabs y == 1)%Q) /\ forall y, In y (known w) -> (Qabs y <= 1)%Q).
Proof.
  cbv zeta. destruct (with_present_cases (fun v x => x / nonzero (qgreatest (map Qabs v)))%Q l) as [[E ->]|[N ->]].
  - exists 1%Q. split; [reflexivity|]. split; [apply elementwise_none, E|]. split; [intros; reflexivity|]. intro A. exfalso. apply A. rewrite E. intros x [].
  - assert (N' : map Qabs (known l) <> []) by (destruct (known l); [congruence|discriminate]). destruct (qgreatest_ok _ N') as [I G]. set (d := qgreatest (map Qabs (known l))) in *.
    apply in_map_iff in I as (x0 & E0 & I0). assert (P : (0 <= d)%Q) by (rewrite <- E0; apply Qabs_nonneg).
    destruct (nonzero_pos d P) as (C & C0 & C1). exists (nonzero d). split; [exact C|]. split; [apply divided, C|].
    assert (AZ : (d == 0)%Q <-> all_zero (known l)).
    { split.
      - intros E x I. assert (A : (Qabs x <= d)%Q) by (apply G, in_map, I). rewrite E in A. apply Qabs_Qle_condition in A. lra.
      - intros A. rewrite <- E0, (A x0 I0). reflexivity. }
    split; [intro A; rewrite C0; [reflexivity|apply AZ, A]|]. intro A. assert (D : ~ (d == 0)%Q) by (intro E; apply A, AZ, E). rewrite known_map. split.
    + exists (x0 / nonzero d)%Q. split; [apply in_map_iff; eauto|]. rewrite abs_div by exact C. rewrite (C1 D), E0. field. exact D.
    + intros y I. apply in_map_iff in I as (x & <- & I). rewrite abs_div by exact C. apply Qle_shift_div_r; [exact C|]. rewrite (C1 D), Qmult_1_l. apply G, in_map, I.
Qed.
Lemma bit_ok l : elementwise (fun x y => (0 < x -> y == 1) /\ (x < 0 -> y == - (1)) /\ (x == 0 -> y == 0))%Q l (map (option_map (fun x => x / nonzero (Qabs x))%Q) l).
Proof.
  apply elementwise_map. intros x _. destruct (nonzero_pos (Qabs x) (Qabs_nonneg x)) as (C & C0 & C1). split; [|split].
  - intro P. assert (E : (Qabs x == x)%Q) by (apply Qabs_pos; lra). rewrite C1 by (rewrite E; lra). rewrite E. field. lra.
  - intro P. assert (E : (Qabs x == - x)%Q) by (apply Qabs_neg; lra). rewrite C1 by (rewrite E; lra). rewrite E. field. lra.
  - intro E. unfold Qdiv. rewrite E at 1. ring.
Qed.
Lemma qmean_ext f g (l : list Q) : (forall x, In x l -> f x == g x)%Q -> (qmean (map f l) == qmean (map g l))%Q.
Proof. intro H. unfold qmean. rewrite !zlen_mapq. rewrite (qsum_ext f g l H). reflexivity. Qed.
Lemma known_count l : known l <> [] -> (0 < inject_Z (zlen (known l)))%Q.
Proof. intro N. destruct (known l) as [|x t]; [congruence|]. unfold zlen. cbn [List.length]. change 0%Q with (inject_Z 0). rewrite <- Zlt_Qlt. lia. Qed.
Lemma mean_one l a b : l <> [] -> mean_of l a -> mean_of l b -> (a == b)%Q.
Proof.
  intros N A B. assert (P : (0 < inject_Z (zlen l))%Q). { destruct l as [|x t]; [congruence|]. unfold zlen. cbn [List.length]. change 0%Q with (inject_Z 0). rewrite <- Zlt_Qlt. lia. }
  unfold mean_of in A, B. rewrite <- B in A. apply Qmult_inj_r in A; [exact A|]. lra.
Qed.
Lemma spread_one l a b : l <> [] -> spread_of l a -> spread_of l b -> (a == b)%Q.
Proof.
  intros N (m & M & A) (m' & M' & B). pose proof (mean_one _ _ _ N M M') as E.
  assert (N' : squares (map (fun x => x - m)%Q l) <> []) by (destruct l; [congruence|discriminate]). apply (mean_one _ _ _ N' A).
  unfold mean_of in *. unfold squares in *. rewrite !map_map in *. rewrite !zlen_mapq in *. rewrite B. change (total_of ?x) with (qsum x). apply qsum_ext. intros x _. rewrite E. reflexivity.
Qed.
Definition mvar (v : list Q) : Q := qmean (map (fun x => (x - qmean v) * (x - qmean v)) v)%Q.
Lemma spread_mvar l : l <> [] -> spread_of l (mvar l).
Proof.
  intro N. exists (qmean l). split; [apply qmean_ok, N|]. unfold squares. rewrite map_map. unfold mvar. apply qmean_ok. destruct l; [congruence|discriminate].
Qed.
Lemma standardize_len root l : zlen (standardize_line root l) = zlen l.
Proof. unfold standardize_line. destruct (present l); [apply zlen_mapq|]. cbv zeta. destruct (Qeq_bool _ 0); apply zlen_mapq. Qed.
Lemma standard_ok root l : standard_line root l (standardize_line root l).
Proof.
  intro R. split; [apply standardize_len|]. unfold standardize_line. rewrite present_known. destruct (known l) as [|x0 t] eqn:K.
  - split; [intros _; apply known_none|]. intros v N. congruence.
  - rewrite <- K in *. assert (N : known l <> []) by congruence. specialize (R N). clear K x0 t. fold (mvar (known l)). cbv zeta. set (s := root (mvar (known l))).
    pose proof (spread_mvar _ N) as SM. destruct (R _ SM) as [P S]. fold s in P, S. split.
    + intros [E|E]; [congruence|]. pose proof (spread_one _ _ _ N E SM) as E0. rewrite <- E0 in S. assert (Z : (s == 0)%Q) by (apply Qmult_integral in S as [S|S]; exact S).
      apply Qeq_bool_iff in Z. rewrite Z. apply known_none.
    + intros v _ Sv Nv. pose proof (spread_one _ _ _ N Sv SM) as E0. destruct (Qeq_bool s 0) eqn:Z; [apply Qeq_bool_iff in Z; exfalso; apply Nv; rewrite E0, <- S, Z; reflexivity|].
      apply Qeq_bool_neq in Z. assert (Ps : (0 < s)%Q) by (destruct (Qle_lt_or_eq _ _ P) as [H|H]; [exact H|exfalso; apply Z; symmetry; exact H]).
      exists (qmean (known l)), s. split; [apply qmean_ok, N|]. split; [exact Ps|]. split; [rewrite S; symmetry; exact E0|]. split; [apply elementwise_map; intros; reflexivity|].
      rewrite known_map. pose proof (qmean_ok _ N) as M. pose proof (qmean_ok (map (fun x => (x - qmean (known l)) * (x - qmean (known l)))%Q (known l))) as V. fold (mvar (known l)) in V.
      assert (N2 : map (fun x => (x - qmean (known l)) * (x - qmean (known l)))%Q (known l) <> []) by (destruct (known l); [congruence|discriminate]). specialize (V N2). clearbody s. set (c := qmean (known l)) in *. clearbody c. set (vv := mvar (known l)) in *. clearbody vv.
      unfold mean_of in *. unfold squares. rewrite map_map, !zlen_mapq in *. change (total_of ?x) with (qsum x) in *. split.
      * rewrite (qsum_ext _ (fun x => / s * (x - c))%Q) by (intros; field; lra). rewrite qsum_scale, shift_total, <- M. ring.
      * rewrite (qsum_ext _ (fun x => (/ s * / s) * ((x - c) * (x - c)))%Q) by (intros; field; lra). rewrite qsum_scale, <- V, <- S. field. lra.
Qed.

Section Patches.
Context (root : Q -> Q) (p : patch (option Q)) (d : string) (W : wf_patch p).
Lemma demean_ok : In d (cm_dims (p_cm p)) -> exists q, pt_demean d p = Ok q /\
  each_line p q d (fun vs ws => (total_of (known ws) == 0)%Q /\ exists c, (known vs <> [] -> mean_of (known vs) c) /\ elementwise (fun x y => y == x - c)%Q vs ws).
Proof.
  intro I. apply per_line_ok; [exact W|exact I|intros; apply with_present_len|]. intro vs. destruct (demean_line_ok vs) as (c & A & B & C). split; [exact C|]. exists c. auto.
Qed.
Lemma demedian_ok : In d (cm_dims (p_cm p)) -> exists q, pt_demedian d p = Ok q /\
  each_line p q d (fun vs ws => exists c, (known vs <> [] -> middle (known vs) c /\ middle (known ws) 0) /\ elementwise (fun x y => y == x - c)%Q vs ws).
Proof. intro I. apply per_line_ok; [exact W|exact I|intros; apply with_present_len|]. intro vs. exact (demedian_line_ok vs). Qed.
Lemma standardize_ok : In d (cm_dims (p_cm p)) -> exists q, pt_standardize root d p = Ok q /\ each_line p q d (standard_line root).
Proof. intro I. apply per_line_ok; [exact W|exact I|intros; apply standardize_len|]. intro vs. exact (standard_ok root vs). Qed.
Lemma normalize_eq norm f : In d (cm_dims (p_cm p)) -> normalize_line root norm = Some f -> pt_normalize root d norm p = per_line f d p.
Proof.
  intros I E. unfold pt_normalize. rewrite E. unfold get_axis. destruct (index_of d (cm_dims (p_cm p))) eqn:X; [reflexivity|]. apply index_of_None in X. contradiction.
Qed.
Lemma normalize_l1 : In d (cm_dims (p_cm p)) -> exists q, pt_normalize root d "l1" p = Ok q /\
  each_line p q d (fun vs ws => scaled vs ws (fun l => total_of (map Qabs l) == 1)%Q).
Proof. intro I. erewrite (normalize_eq "l1") by (exact I || reflexivity). apply per_line_ok; [exact W|exact I|intros; apply zlen_mapq|]. intro vs. exact (l1_ok vs). Qed.
Lemma normalize_max : In d (cm_dims (p_cm p)) -> exists q, pt_normalize root d "max" p = Ok q /\
  each_line p q d (fun vs ws => scaled vs ws (fun l => (exists y, In y l /\ (Qabs y == 1)%Q) /\ forall y, In y l -> (Qabs y <= 1)%Q)).
Proof. intro I. erewrite (normalize_eq "max") by (exact I || reflexivity). apply per_line_ok; [exact W|exact I|intros; apply with_present_len|]. intro vs. exact (max_ok vs). Qed.
Lemma normalize_bit : In d (cm_dims (p_cm p)) -> exists q, pt_normalize root d "bit" p = Ok q /\
  each_line p q d (elementwise (fun x y => (0 < x -> y == 1) /\ (x < 0 -> y == - (1)) /\ (x == 0 -> y == 0))%Q).
Proof. intro I. erewrite (normalize_eq "bit") by (exact I || reflexivity). apply per_line_ok; [exact W|exact I|intros; apply zlen_mapq|]. intro vs. exact (bit_ok vs). Qed.
Lemma normalize_l2 : In d (cm_dims (p_cm p)) -> exists q, pt_normalize root d "l2" p = Ok q /\
  each_line p q d (fun vs ws => (forall s, s == total_of (squares (known vs)) -> 0 <= root s /\ root s * root s == s)%Q -> scaled vs ws (fun l => total_of (squares l) == 1)%Q).
Proof.
  intro I. erewrite (normalize_eq "l2") by (exact I || reflexivity). apply per_line_ok; [exact W|exact I|intros; apply zlen_mapq|]. intros vs R. rewrite present_known.
  assert (E : (qsum (map (fun x => Qabs x * Qabs x) (known vs)) == total_of (squares (known vs)))%Q) by (apply qsum_ext; intros; apply abs_sq).
  destruct (R _ E) as [P S]. apply l2_ok; [exact P|]. rewrite S. exact E.
Qed.
Lemma refused : ~ In d (cm_dims (p_cm p)) -> pt_demean d p = Err CoordError /\ pt_demedian d p = Err CoordError /\ pt_standardize root d p = Err CoordError /\ forall norm, pt_normalize root d norm p = Err CoordError.
Proof.
  intro N. repeat split; try (apply per_line_refused, N). intro norm. unfold pt_normalize, get_axis. rewrite (proj2 (index_of_None d _) N). reflexivity.
Qed.
Lemma refused_norm norm : In d (cm_dims (p_cm p)) -> ~ In norm ["l1"; "l2"; "max"; "bit"]%string -> pt_normalize root d norm p = Err ValueError.
Proof.
  intros I N. unfold pt_normalize, get_axis. destruct (index_of d (cm_dims (p_cm p))) eqn:X; [|apply index_of_None in X; contradiction]. cbn [bind].
  replace (normalize_line root norm) with (@None (list (option Q) -> list (option Q))); [reflexivity|]. symmetry. unfold normalize_line.
  assert (B : forall k, In k ["l1"; "l2"; "max"; "bit"]%string -> String.eqb norm k = false) by (intros k K; apply String.eqb_neq; intros ->; contradiction).
  rewrite !B by (cbn; tauto). reflexivity.
Qed.
End Patches.
