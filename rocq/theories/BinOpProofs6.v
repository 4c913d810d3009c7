(** Lemmas behind BinOpProps.v: an operation between two patches. *)
From Verif Require Import Base BaseFacts CoordModel CoordSpec CoordProofs CoordProofs2 CoordProofs3
  CoordProofs4 CoordProofs5 NdModel NdSpec NdProofs NdProofs2 NdProofs3 FrameModel FrameProofs5 ChunkModel CmModel CmSpec
  CmProofs CmProofs2 CmProofs3 CmProofs4 CmProofs8 CmProofs10 CmProofs12 CmProofs13 CmProofs15 BinOpModel BinOpSpec BinOpProofs BinOpProofs2 BinOpProofs3 BinOpProofs4 BinOpProofs5.
From Coq Require Import Strings.String ZifyBool Sorting.Permutation Sorting.Sorted.
Ltac Zify.zify_post_hook ::= Z.div_mod_to_equations.
Local Open Scope Z_scope.
Local Open Scope list_scope.

Lemma dim_len_fun cm d c n : assoc d (cm_coords cm) = Some (M1 c) -> dim_len cm d n -> n = c_len c.
Proof. intros C (c' & C' & <-). congruence. Qed.
Lemma shape_of {A} (p : patch A) l : wf_patch p -> (forall d, In d (cm_dims (p_cm p)) -> dim_len (p_cm p) d (l d)) ->
  nd_shape (p_data p) = map l (cm_dims (p_cm p)).
Proof.
  intros W H. pose proof (wp_shape _ W) as F. induction F as [|d n ds s X F IH]; [reflexivity|]. cbn [map]. f_equal.
  - destruct X as (c & C & <-). symmetry. apply (dim_len_fun _ _ _ _ C), H. left. reflexivity.
  - apply IH. intros e E. apply H. right. exact E.
Qed.
Lemma zlen_zr n : 0 <= n -> zlen (zrange n) = n.
Proof. intros H. rewrite zlen_zrange. lia. Qed.

Section Dim.
Context {A B : Type} (p p2 : patch A) (q q2 : patch B) (D : list string) (ps1 ps2 vs : string -> list Z).
Hypothesis Wp : wf_patch p.
Hypothesis Wq : wf_patch q.
Hypothesis L1 : lined p p2 D ps1.
Hypothesis L2 : lined q q2 D ps2.

(** How one dimension of the aligned operands relates to the operands. *)
Definition dim_good (d : string) (c1 c2 : coord) : Prop :=
  settled c1 c2 /\ result_coord (p_cm p) (p_cm q) vs d (recf (M1 (chosen c1 c2))) /\
  (forall c, dim_coord (p_cm p) d = Some c -> stretches c = false -> c1 <> CPart 1) /\
  (forall c, dim_coord (p_cm p) d = Some c -> c1 = CPart 1 -> c = CPart 1 /\ ps1 d = zrange 1) /\
  (forall c c', dim_coord (p_cm p) d = Some c -> dim_coord (p_cm q) d = Some c' -> stretches c = false -> stretches c' = false ->
     represents c1 (vs d) /\ represents c2 (vs d)) /\
  (forall i n, bcast_len (c_len c1) (c_len c2) = Some n -> 0 <= i < n ->
     pairs_up (p_cm p) (p_cm q) vs d i (zget (ps1 d) (if c_len c1 =? 1 then 0 else i)) (zget (ps2 d) (if c_len c2 =? 1 then 0 else i))).

Lemma dim_facts d : In d D -> matches (dim_coord (p_cm p) d) (dim_coord (p_cm q) d) -> pairing (p_cm p) (p_cm q) vs ps1 ps2 d ->
  exists c1 c2, assoc d (cm_coords (p_cm p2)) = Some (M1 c1) /\ assoc d (cm_coords (p_cm q2)) = Some (M1 c2) /\
    wf_coord c1 /\ wf_coord c2 /\ c_len c1 = zlen (ps1 d) /\ c_len c2 = zlen (ps2 d) /\ dim_good d c1 c2.
Proof.
  intros J M P. pose proof (ln_len _ _ _ _ L1 d J) as (c1 & C1 & N1). pose proof (ln_len _ _ _ _ L2 d J) as (c2 & C2 & N2).
  pose proof (wf_vals _ (wp_cm _ (ln_wf _ _ _ _ L1)) _ _ C1) as W1. pose proof (wf_vals _ (wp_cm _ (ln_wf _ _ _ _ L2)) _ _ C2) as W2. cbn [wf_mcoord] in W1, W2.
  exists c1, c2. do 6 (split; [assumption|]).
  assert (R1 : forall c, dim_coord (p_cm p) d = Some c -> wf_coord c /\ carried1 c c1 (ps1 d)).
  { intros c E. apply dim_coord_some in E as [K E]. split; [apply (wf_vals _ (wp_cm _ Wp) _ _ E)|].
    destruct (ln_dim _ _ _ _ L1 d c K E) as (x & X & Y). rewrite C1 in X. injection X as <-. exact Y. }
  assert (R2 : forall c, dim_coord (p_cm q) d = Some c -> wf_coord c /\ carried1 c c2 (ps2 d)).
  { intros c E. apply dim_coord_some in E as [K E]. split; [apply (wf_vals _ (wp_cm _ Wq) _ _ E)|].
    destruct (ln_dim _ _ _ _ L2 d c K E) as (x & X & Y). rewrite C2 in X. injection X as <-. exact Y. }
  assert (Q1 : dim_coord (p_cm p) d = None -> c1 = CPart 1 /\ ps1 d = [0]).
  { intros E. destruct (ln_new _ _ _ _ L1 d J) as [X Y]; [|split; [congruence|exact Y]].
    intros K. destruct (dim_coord_in _ d (wp_cm _ Wp) K) as (c & F & _). congruence. }
  assert (Q2 : dim_coord (p_cm q) d = None -> c2 = CPart 1 /\ ps2 d = [0]).
  { intros E. destruct (ln_new _ _ _ _ L2 d J) as [X Y]; [|split; [congruence|exact Y]].
    intros K. destruct (dim_coord_in _ d (wp_cm _ Wq) K) as (c & F & _). congruence. }
  (* a coordinate that keeps all its positions stays the kind it is *)
  assert (PART : forall c c' ps, wf_coord c' -> c_len c' = zlen ps -> carried1 c c' ps -> c' = CPart 1 -> zlen ps = 1 /\ c = CPart (match c with CPart n => n | _ => 0 end)).
  { intros c c' ps W' N Ca ->. cbn [c_len] in N. split; [lia|].
    assert (Y : forall v, gather (c_ints c) ps = Some v -> represents (CPart 1) v -> False).
    { intros v G R. assert (v <> []). { intros ->. apply gather_some_len in G. change (zlen (@nil Z)) with 0 in G. lia. }
      apply (represents_concrete _ _ W' R H). }
    destruct c; [..|reflexivity]; cbn [carried1] in Ca; destruct Ca as (u & G & R); destruct (Y u G R). }
  assert (ALL : forall c c' k, wf_coord c -> carried1 c c' (zrange (c_len c)) -> k = [c_len c] -> okc c' -> carried (M1 c) (recf (M1 c')) (full k)).
  { intros c c' k W Ca -> K. apply carried_recf; [exact K|]. cbn [carried]. exists c', (zrange (c_len c)). auto. }
  unfold dim_good, pairing, matches, result_coord, pairs_up in *.
  destruct (dim_coord (p_cm p) d) as [c|] eqn:E1, (dim_coord (p_cm q) d) as [c'|] eqn:E2; [..|destruct P].
  - destruct (R1 c eq_refl) as [Wc Ca]. destruct (R2 c' eq_refl) as [Wc' Ca']. clear R1 R2 Q1 Q2.
    pose proof (c_len_nonneg c Wc) as Z1. pose proof (c_len_nonneg c' Wc') as Z2.
    destruct (stretches c) eqn:S1; [|destruct (stretches c') eqn:S2]; cbn [orb] in P.
    + apply stretches_part in S1. subst c. cbn [c_len] in *. destruct P as [P1 P2]. rewrite P1, P2 in *.
      assert (X1 : c1 = CPart 1) by exact Ca. subst c1. rewrite zlen_zr in N2 by exact Z2.
      assert (POS : 0 < c_len c').
      { destruct M as [M|[[_ M]|[M _]]]; [destruct (cmp_left _ _ M)|exact M|apply stretches_part in M; subst; cbn; lia]. }
      assert (SE : settled (CPart 1) c2) by (right; left; split; [reflexivity|lia]).
      destruct (chosen_spec _ _ W1 W2 SE) as (CH1 & CH2 & _ & CH4 & _). rewrite CH4 in * by reflexivity.
      split; [exact SE|]. split; [apply ALL; auto; apply wf_okc, W2|]. split; [intros x [= <-] H; cbn in H; lia|].
      split; [intros x [= <-] _; auto|]. split; [intros x y [= <-] _ H; cbn in H; lia|].
      intros i n BL I. cbn [c_len] in BL, CH1. rewrite CH1 in BL. injection BL as <-. split; [apply zget_range; lia|].
      destruct (stretches c') eqn:S2.
      * apply stretches_part in S2. subst c'. cbn [c_len] in *. rewrite N2. apply zget_range; lia.
      * destruct (Z.eqb_spec (c_len c2) 1) as [X|X]; rewrite zget_range by lia; lia.
    + apply stretches_part in S2. subst c'. cbn [c_len] in *. destruct P as [P1 P2]. rewrite P1, P2 in *.
      assert (X1 : c2 = CPart 1) by exact Ca'. subst c2. rewrite zlen_zr in N1 by exact Z1.
      assert (POS : 0 < c_len c).
      { destruct M as [M|[[M _]|[_ M]]]; [destruct (cmp_right _ _ M)|congruence|exact M]. }
      assert (SE : settled c1 (CPart 1)) by (right; right; split; [reflexivity|lia]).
      destruct (chosen_spec _ _ W1 W2 SE) as (CH1 & CH2 & _ & _ & CH4 & _). rewrite CH4 in * by (auto; lia).
      assert (NP : c1 <> CPart 1).
      { intros H. destruct (PART c c1 (zrange (c_len c)) W1 ltac:(rewrite zlen_zr; lia) Ca H) as [X Y]. rewrite zlen_zr in X by lia. rewrite Y in S1, X. cbn in S1, X. lia. }
      split; [exact SE|]. split; [apply ALL; auto; apply wf_okc, W1|]. split; [intros x [= <-] _; exact NP|].
      split; [intros x [= <-] H; contradiction|]. split; [intros x y [= <-] [= <-] _ H; cbn in H; lia|].
      intros i n BL I. cbn [c_len] in BL, CH1. rewrite CH1 in BL. injection BL as <-. split; [|apply zget_range; lia].
      destruct (Z.eqb_spec (c_len c1) 1) as [X|X]; rewrite zget_range by lia; lia.
    + destruct P as [P1 P2]. destruct M as [M|[[M _]|[M _]]]; [|congruence|congruence].
      assert (RA : represents c1 (vs d)). { pose proof (cmp_left _ _ M) as X. destruct c; try contradiction; cbn [carried1] in Ca; destruct Ca as (u & G & R); congruence. }
      assert (RB : represents c2 (vs d)). { pose proof (cmp_right _ _ M) as X. destruct c'; try contradiction; cbn [carried1] in Ca'; destruct Ca' as (u & G & R); congruence. }
      assert (SE : settled c1 c2) by (left; eauto).
      destruct (chosen_spec _ _ W1 W2 SE) as (CH1 & CH2 & CH3 & _).
      assert (NP : c1 <> CPart 1).
      { intros H. destruct (PART c c1 _ W1 N1 Ca H) as [_ Y]. pose proof (cmp_left _ _ M) as X. rewrite Y in X. destruct X. }
      split; [exact SE|]. split; [destruct (represents_recf _ _ (wf_okc _ CH2) (CH3 _ RA RB)) as (cr & X & Y & _); rewrite X; eauto|].
      split; [intros x [= <-] _; exact NP|]. split; [intros x [= <-] H; contradiction|]. split; [auto|].
      pose proof (represents_len _ _ (wf_okc _ W1) RA) as LA. pose proof (represents_len _ _ (wf_okc _ W2) RB) as LB.
      assert (SAME : forall i, 0 <= i < zlen (vs d) -> forall k (ps : list Z), k = zlen (vs d) ->
        forall l, gather l ps = Some (vs d) -> exists x, znth (vs d) i = Some x /\ znth l (zget ps (if k =? 1 then 0 else i)) = Some x).
      { intros i I k ps -> l G. assert (exists x, znth (vs d) i = Some x) as [x X] by (destruct (znth (vs d) i) eqn:X; [eauto|apply znth_none in X; lia]).
        exists x. split; [exact X|]. replace (if zlen (vs d) =? 1 then 0 else i) with i by (destruct (Z.eqb_spec (zlen (vs d)) 1); lia).
        rewrite (gather_znth _ _ _ G i) in X. unfold zget. destruct (znth ps i); [exact X|discriminate]. }
      intros i n BL I. assert (n = zlen (vs d)) as -> by (apply bcast_len_spec in BL; lia).
      destruct (SAME i I _ _ LA _ P1) as (x & X & Y). destruct (SAME i I _ _ LB _ P2) as (x' & X' & Y'). exists x. rewrite X in X'. injection X' as <-. auto.
  - destruct (R1 c eq_refl) as [Wc Ca]. destruct (Q2 eq_refl) as [-> PS2]. rewrite P in *.
    pose proof (c_len_nonneg c Wc) as Z1. rewrite zlen_zr in N1 by exact Z1.
    assert (SE : settled c1 (CPart 1)) by (right; right; split; [reflexivity|lia]).
    destruct (chosen_spec _ _ W1 W2 SE) as (CH1 & CH2 & _ & _ & CH4 & _). rewrite CH4 in * by (auto; lia).
    assert (NP : c1 = CPart 1 -> c = CPart 1).
    { intros H. destruct (PART c c1 (zrange (c_len c)) W1 ltac:(rewrite zlen_zr; lia) Ca H) as [X Y]. rewrite zlen_zr in X by lia. rewrite Y in X. cbn in X. rewrite Y. f_equal. exact X. }
    split; [exact SE|]. split; [apply ALL; auto; apply wf_okc, W1|]. split; [intros x [= <-] S H; rewrite (NP H) in S; cbn in S; lia|].
    split; [intros x [= <-] H; rewrite (NP H); auto|]. split; [intros x y [= <-] H; discriminate|].
    intros i n BL I. cbn [c_len] in BL, CH1. rewrite CH1 in BL. injection BL as <-.
    destruct (Z.eqb_spec (c_len c1) 1) as [X|X]; rewrite zget_range by lia; lia.
  - destruct (R2 c' eq_refl) as [Wc Ca]. destruct (Q1 eq_refl) as [-> PS1]. rewrite P in *.
    pose proof (c_len_nonneg c' Wc) as Z1. rewrite zlen_zr in N2 by exact Z1.
    assert (SE : settled (CPart 1) c2) by (right; left; split; [reflexivity|lia]).
    destruct (chosen_spec _ _ W1 W2 SE) as (CH1 & CH2 & _ & CH4 & _). rewrite CH4 in * by reflexivity.
    split; [exact SE|]. split; [apply ALL; auto; apply wf_okc, W2|]. split; [discriminate|]. split; [discriminate|]. split; [discriminate|].
    intros i n BL I. cbn [c_len] in BL, CH1. rewrite CH1 in BL. injection BL as <-.
    destruct (Z.eqb_spec (c_len c2) 1) as [X|X]; rewrite zget_range by lia; lia.
Qed.
End Dim.

Lemma map_result_err {S T} (f : S -> result T) l e : map_result f l = Err e -> exists x, In x l /\ f x = Err e.
Proof.
  induction l as [|x t IH]; cbn [map_result]; [discriminate|]. destruct (f x) as [y|e'] eqn:F; cbn [bind].
  - destruct (map_result f t) as [z|e'] eqn:M; cbn [bind]; [discriminate|]. intros [= <-]. destruct (IH eq_refl) as (w & J & H). exists w. split; [right; exact J|exact H].
  - intros [= <-]. exists x. split; [left; reflexivity|exact F].
Qed.

Section All.
Context {A B C : Type} (op : A -> B -> C) (argsort : list Z -> list Z) (p : patch A) (q : patch B).
Hypothesis VA : valid_argsort argsort.
Hypothesis Wp : wf_patch p.
Hypothesis Wq : wf_patch q.
Hypothesis OP : operands (p_cm p) (p_cm q).

Lemma binop_ok : ((exists r vs, binop op argsort p q = Ok r /\ combined op p q r vs) \/ binop op argsort p q = Err AssertionError) /\
  ((forall n, In n (map fst (cm_coords (p_cm p))) -> In n (map fst (cm_coords (p_cm q))) -> In n (cm_dims (p_cm p)) \/ In n (cm_dims (p_cm q))) ->
   (forall d c c' v, dim_coord (p_cm p) d = Some c -> dim_coord (p_cm q) d = Some c' -> common_labels (c_ints c) (c_ints c') v -> spread v) ->
   binop op argsort p q <> Err AssertionError).
Proof.
  set (D := all_dims (cm_dims (p_cm p)) (cm_dims (p_cm q))).
  assert (NDD : NoDup D) by (apply all_dims_NoDup; [apply (wf_dims _ (wp_cm _ Wp))|apply (wf_dims _ (wp_cm _ Wq))]).
  destruct (pair_aligned argsort p q VA Wp Wq OP) as (p2 & q2 & ps1 & ps2 & vs & EA & L1 & L2 & CM & PR). fold D in L1, L2, PR.
  pose proof (ln_wf _ _ _ _ L1) as W1. pose proof (ln_wf _ _ _ _ L2) as W2. pose proof (ln_dims _ _ _ _ L1) as D1. pose proof (ln_dims _ _ _ _ L2) as D2.
  assert (FACT : forall d, In d D -> exists c1 c2, assoc d (cm_coords (p_cm p2)) = Some (M1 c1) /\ assoc d (cm_coords (p_cm q2)) = Some (M1 c2) /\
    wf_coord c1 /\ wf_coord c2 /\ c_len c1 = zlen (ps1 d) /\ c_len c2 = zlen (ps2 d) /\ dim_good p q ps1 ps2 vs d c1 c2).
  { intros d J. apply (dim_facts p p2 q q2 D ps1 ps2 vs Wp Wq L1 L2 d J); [apply (op_match _ _ OP)|apply PR, J]. }
  assert (DIMS : forall d c1 c2, In d D -> assoc d (cm_coords (p_cm p2)) = Some (M1 c1) -> assoc d (cm_coords (p_cm q2)) = Some (M1 c2) ->
    wf_coord c1 /\ wf_coord c2 /\ c_len c1 = zlen (ps1 d) /\ c_len c2 = zlen (ps2 d) /\ dim_good p q ps1 ps2 vs d c1 c2).
  { intros d c1 c2 J C1 C2. destruct (FACT d J) as (x & y & X & Y & H). rewrite C1 in X. rewrite C2 in Y. injection X as <-. injection Y as <-. exact H. }
  assert (INP : forall n ds d, assoc n (cm_dmap (p_cm p)) = Some ds -> In d ds -> In d (cm_dims (p_cm p))).
  { intros n ds d X Y. destruct (con_coord _ (wf_con _ (wp_cm _ Wp)) n ds X) as (m & _ & H & _). apply H, Y. }
  (* the coordinates *)
  assert (MO := merge_ok p2 q2 W1 W2 (ln_plain _ _ _ _ L1) (eq_trans D1 (eq_sym D2))).
  rewrite D1 in MO.
  assert (SE : forall d c1 c2, In d D -> assoc d (cm_coords (p_cm p2)) = Some (M1 c1) -> assoc d (cm_coords (p_cm q2)) = Some (M1 c2) -> settled c1 c2).
  { intros d c1 c2 J C1 C2. apply (DIMS d c1 c2 J C1 C2). }
  specialize (MO SE).
  assert (NDIM : forall n m1 m2, ~ In n D -> assoc n (cm_coords (p_cm p2)) = Some m1 -> assoc n (cm_coords (p_cm q2)) = Some m2 ->
     m_partial m1 = false /\ m_partial m2 = false /\
     forall ds d, assoc n (cm_dmap (p_cm p2)) = Some ds -> In d ds -> assoc d (cm_coords (p_cm p2)) <> Some (M1 (CPart 1))).
  { intros n m1 m2 N X Y. destruct (ln_assoc _ _ _ _ L1 n m1 N X) as (o1 & O1 & _ & P1 & DM). destruct (ln_assoc _ _ _ _ L2 n m2 N Y) as (o2 & O2 & _ & P2 & _).
    assert (N1 : ~ In n (cm_dims (p_cm p))) by (intros K; apply N, in_all_dims; auto).
    assert (N2 : ~ In n (cm_dims (p_cm q))) by (intros K; apply N, in_all_dims; auto).
    destruct (op_assoc _ _ OP n o1 o2 O1 O2 N1 N2) as (A1 & A2 & A3).
    split; [rewrite P1; destruct o1 as [[]| |]; cbn; tauto|]. split; [rewrite P2; destruct o2 as [[]| |]; cbn; tauto|].
    intros ds d F K. rewrite DM in F. assert (Jp := INP n ds d F K). destruct (dim_coord_in _ d (wp_cm _ Wp) Jp) as (c & E & _).
    assert (J : In d D) by (apply in_all_dims; auto). destruct (FACT d J) as (c1 & c2 & C1 & C2 & _ & _ & _ & _ & (_ & _ & G & _)).
    rewrite C1. intros [= Q]. apply (G c E (A3 ds d c F K E) Q). }
  specialize (MO NDIM).
  unfold binop. rewrite EA. cbn [bind fst snd]. unfold merge_aligned. rewrite D1, D2.
  assert (strs_eqb D D = true) as -> by (apply strs_eqb_eq; reflexivity). cbn [negb].
  set (names := filter (fun n => mem n (map fst (cm_coords (p_cm q2)))) (map fst (cm_coords (p_cm p2)))) in *.
  assert (IN : forall n, In n names <-> In n (map fst (cm_coords (p_cm p2))) /\ In n (map fst (cm_coords (p_cm q2)))).
  { intros n. unfold names. rewrite filter_In, mem_In'. tauto. }
  destruct (map_result (merge_coord (p_cm p2) (p_cm q2)) names) as [out|e] eqn:EO; cbn [bind].
  2:{ apply map_result_err in EO as (n & J & F). apply IN in J as [J1 J2].
      pose proof (wf_keys _ (wp_cm _ W1) n J1) as K1. pose proof (wf_keys _ (wp_cm _ W2) n J2) as K2.
      apply assoc_In in J1 as [m1 J1]. apply assoc_In in J2 as [m2 J2]. apply assoc_In in K1 as [ds1 K1]. apply assoc_In in K2 as [ds2 K2].
      unfold merge_coord in F. rewrite J1, J2, K1, K2 in F.
      assert (e = AssertionError) as ->.
      { destruct (m_partial m1), (m_partial m2); try discriminate. destruct (_ && _); [discriminate|]. congruence. }
      split; [right; reflexivity|]. intros NS SP _.
      assert (JD : In n D).
      { destruct (in_dec string_dec n D) as [K|K]; [exact K|exfalso].
        destruct (ln_assoc _ _ _ _ L1 n m1 K J1) as (o1 & O1 & _). destruct (ln_assoc _ _ _ _ L2 n m2 K J2) as (o2 & O2 & _).
        apply K, in_all_dims, NS; apply assoc_In; eauto. }
      destruct (FACT n JD) as (c1 & c2 & C1 & C2 & Wc1 & Wc2 & _ & _ & (S & _ & _ & _ & R & _)).
      rewrite J1 in C1. rewrite J2 in C2. injection C1 as ->. injection C2 as ->.
      assert (DS1 : ds1 = [n]) by (rewrite <- D1 in JD; destruct (con_dim _ (wf_con _ (wp_cm _ W1)) n JD) as [_ X]; congruence).
      assert (DS2 : ds2 = [n]) by (rewrite <- D2 in JD; destruct (con_dim _ (wf_con _ (wp_cm _ W2)) n JD) as [_ X]; congruence).
      subst ds1 ds2.
      destruct (m_partial (M1 c1)) eqn:MP1, (m_partial (M1 c2)) eqn:MP2; try discriminate.
      assert (strs_eqb [n] [n] = true) as SQ by (apply strs_eqb_eq; reflexivity). rewrite SQ, andb_true_r in F.
      assert (X : m_approx (M1 c1) (M1 c2) = true); [|rewrite X in F; discriminate].
      assert (exists c c', dim_coord (p_cm p) n = Some c /\ dim_coord (p_cm q) n = Some c' /\ stretches c = false /\ stretches c' = false) as (c & c' & E1 & E2 & S1 & S2).
      { pose proof (PR n JD) as P. unfold pairing in P. destruct (dim_coord (p_cm p) n) as [c|] eqn:E1.
        - apply dim_coord_some in E1 as [Jp E1']. destruct (ln_dim _ _ _ _ L1 n c Jp E1') as (z & Z1 & Z2). rewrite J1 in Z1. injection Z1 as <-.
          assert (stretches c = false) as Sc. { destruct c; try reflexivity. cbn in Z2. subst c1. discriminate. }
          destruct (dim_coord (p_cm q) n) as [c'|] eqn:E2.
          + exists c, c'. split; [reflexivity|]. split; [reflexivity|]. split; [exact Sc|]. apply dim_coord_some in E2 as [Jq E2'].
            destruct (ln_dim _ _ _ _ L2 n c' Jq E2') as (z & Z3 & Z4). rewrite J2 in Z3. injection Z3 as <-. destruct c'; try reflexivity. cbn in Z4. subst c2. discriminate.
          + destruct (ln_new _ _ _ _ L2 n JD) as [Z _]; [|rewrite J2 in Z; injection Z as ->; discriminate].
            intros K. destruct (dim_coord_in _ n (wp_cm _ Wq) K) as (z & F' & _). congruence.
        - destruct (ln_new _ _ _ _ L1 n JD) as [Z _]; [|rewrite J1 in Z; injection Z as ->; discriminate].
          intros K. destruct (dim_coord_in _ n (wp_cm _ Wp) K) as (z & F' & _). congruence. }
      destruct (R c c' E1 E2 S1 S2) as [R1 R2]. pose proof (SP n c c' _ E1 E2 (CM n c c' E1 E2 S1 S2)) as SPR.
      pose proof (represents_len _ _ (wf_okc _ Wc1) R1) as LE1. pose proof (represents_len _ _ (wf_okc _ Wc2) R2) as LE2.
      assert (NV : vs n <> []) by (intros Z; rewrite Z in R1; apply represents_empty in R1; [subst c1; discriminate|exact Wc1]).
      destruct R1 as (_ & _ & R1), R2 as (_ & _ & R2). specialize (R1 SPR). specialize (R2 SPR).
      assert (I1 : c_ints c1 = vs n) by (apply (values_ints c1 (vs n)); [apply wf_okc, Wc1|exact R1|exact NV]). assert (I2 : c_ints c2 = vs n) by (apply (values_ints c2 (vs n)); [apply wf_okc, Wc2|exact R2|exact NV]).
      unfold m_approx. cbn [m_shape]. rewrite LE1, LE2, (proj2 (CmProofs.zlist_eqb_eq _ _) eq_refl). cbn [andb].
      assert (AP : all_pairs_close (c_kind c2) (c_ints c1) (c_ints c2) = true) by (rewrite I1, I2; apply all_pairs_close_spec, close_list_refl).
      destruct c1, c2; try discriminate; exact AP. }
  destruct (MO out eq_refl) as (cm & EU & Wcm & Dcm & CH & KEEP). clear MO. rewrite EU. cbn [bind].
  (* the array *)
  set (l1 := fun d => zlen (ps1 d)). set (l2 := fun d => zlen (ps2 d)).
  set (l := fun d => match assoc d (cm_coords cm) with Some (M1 c) => c_len c | _ => 0 end).
  assert (LEN : forall d, In d D -> exists c1 c2 cr, assoc d (cm_coords (p_cm p2)) = Some (M1 c1) /\ assoc d (cm_coords (p_cm q2)) = Some (M1 c2) /\
    c_len c1 = l1 d /\ c_len c2 = l2 d /\ recf (M1 (chosen c1 c2)) = M1 cr /\ assoc d (cm_coords cm) = Some (M1 cr) /\ c_len cr = l d /\ c_len (chosen c1 c2) = l d /\
    bcast_len (l1 d) (l2 d) = Some (l d) /\ dim_good p q ps1 ps2 vs d c1 c2).
  { intros d J. destruct (FACT d J) as (c1 & c2 & C1 & C2 & Wc1 & Wc2 & N1 & N2 & G). destruct (chosen_spec c1 c2 Wc1 Wc2 (proj1 G)) as (B1 & B2 & _).
    destruct (recoord_1 _ (wf_okc _ B2)) as (cr & E & _ & LR & _). pose proof (CH d c1 c2 J C1 C2) as X.
    assert (RC : recf (M1 (chosen c1 c2)) = M1 cr) by (unfold recf; rewrite E; reflexivity). rewrite RC in X.
    assert (LD : l d = c_len cr) by (unfold l; rewrite X; reflexivity).
    exists c1, c2, cr. unfold l1, l2. rewrite <- N1, <- N2, LD, LR. auto 12. }
  destruct (nd_map2_named op (p_data p2) (p_data q2) D l1 l2 l NDD (wp_nd _ W1) (wp_nd _ W2)) as (a & EN & Wa & Sa & Ga).
  { rewrite <- D1. apply shape_of; [exact W1|]. rewrite D1. apply (ln_len _ _ _ _ L1). }
  { rewrite <- D2. apply shape_of; [exact W2|]. rewrite D2. apply (ln_len _ _ _ _ L2). }
  { intros d J. destruct (LEN d J) as (c1 & c2 & cr & _ & _ & _ & _ & _ & _ & _ & _ & X & _). split; [apply zlen_nonneg|]. split; [apply zlen_nonneg|exact X]. }
  rewrite EN. cbn [bind]. 
  assert (DL : forall d, In d D -> dim_len cm d (l d)).
  { intros d J. destruct (LEN d J) as (c1 & c2 & cr & _ & _ & _ & _ & _ & X & Y & _). exists cr. auto. }
  destruct (new_patch_ok cm a Wcm Wa) as [EP WP].
  { rewrite Dcm. intros Z. pose proof (wp_some _ W1) as Q. rewrite D1 in Q. contradiction. }
  { rewrite Dcm, Sa. clear - DL. induction D as [|d t IH]; cbn [map]; constructor; [apply DL; left; reflexivity|apply IH; intros e E; apply DL; right; exact E]. }
  rewrite EP. split; [|discriminate]. left. exists (mkPatch cm a), vs. split; [reflexivity|].
  assert (NPD : forall n, ~ In n D -> ~ In n (cm_dims (p_cm p))) by (intros n N K; apply N, in_all_dims; auto).
  split; cbn [p_cm]; [exact WP|exact Dcm|exact CM|..].
  - intros d J. rewrite Dcm in J. destruct (LEN d J) as (c1 & c2 & cr & _ & _ & _ & _ & RC & X & _ & _ & _ & G). exists (M1 cr). split; [exact X|]. rewrite <- RC. apply G.
  - intros pos IS. unfold inside in IS. cbn [p_cm] in IS. rewrite Dcm in *.
    assert (IB : forall d, In d D -> 0 <= pos d < l d).
    { intros d J. destruct (IS d J) as (n & N & I). destruct (LEN d J) as (c1 & c2 & cr & _ & _ & _ & _ & _ & X & Y & _). rewrite (dim_len_fun _ _ _ _ X N) in I. lia. }
    destruct (Ga pos IB) as (x & y & X & Y & R).
    exists (fun d => zget (ps1 d) (squash l1 pos d)), (fun d => zget (ps2 d) (squash l2 pos d)), x, y.
    assert (IN12 : forall d, In d D -> 0 <= squash l1 pos d < l1 d /\ 0 <= squash l2 pos d < l2 d).
    { intros d J. destruct (LEN d J) as (c1 & c2 & cr & _ & _ & _ & _ & _ & _ & _ & _ & BL & _). apply bcast_len_spec in BL. specialize (IB d J).
      unfold squash. destruct (Z.eqb_spec (l1 d) 1), (Z.eqb_spec (l2 d) 1); lia. }
    split. { rewrite <- (ln_data _ _ _ _ L1) by (intros d J; apply IN12, J). unfold data_at. rewrite D1. exact X. }
    split. { rewrite <- (ln_data _ _ _ _ L2) by (intros d J; apply IN12, J). unfold data_at. rewrite D2. exact Y. }
    split. { unfold data_at. cbn [p_cm p_data]. rewrite Dcm. exact R. }
    intros d J. destruct (LEN d J) as (c1 & c2 & cr & C1 & C2 & N1 & N2 & _ & _ & _ & _ & BL & (_ & _ & _ & _ & _ & PU)).
    unfold squash. rewrite <- N1, <- N2 in *. apply (PU _ (l d) BL), IB, J.
  - intros n m' N Q. rewrite Dcm in N. destruct (KEEP n N) as [(K1 & K2 & _)|[K1 _]]; [|congruence]. rewrite K1 in Q.
    destruct (assoc n (cm_coords (p_cm p2))) as [m|] eqn:C1; [|discriminate]. cbn [option_map] in Q. injection Q as <-.
    destruct (ln_assoc _ _ _ _ L1 n m N C1) as (m0 & M0 & Ca & _ & DM). exists m0. split; [exact M0|]. split; [|congruence].
    apply carried_recf; [apply wf_okm, (wf_vals _ (wp_cm _ W1) _ _ C1)|exact Ca].
  - intros n m ds N C0 M0. rewrite Dcm in N. pose proof (ln_kept _ _ _ _ L1 n m ds N C0 M0) as KP.
    assert (TRI : forall d k, In d ds -> dim_len (p_cm p) d k -> (dim_len (p_cm p2) d k \/ dim_len (p_cm p2) d (l d)) /\ (dim_len (p_cm p2) d k -> dim_len cm d k -> dim_len (p_cm p2) d (l d))).
    { intros d k J K. pose proof (INP n ds d M0 J) as Jp. assert (JD : In d D) by (apply in_all_dims; auto).
      destruct (LEN d JD) as (c1 & c2 & cr & C1 & C2 & N1 & N2 & _ & Cr & Nr & _ & BL & G). destruct (dim_coord_in _ d (wp_cm _ Wp) Jp) as (c & E & Cc & _).
      pose proof (dim_len_fun _ _ _ _ Cc K) as ->. split.
      - destruct (DIMS d c1 c2 JD C1 C2) as (Wc1 & Wc2 & _). destruct (chosen_spec c1 c2 Wc1 Wc2 (proj1 G)) as (_ & _ & _ & _ & _ & CHL).
        destruct (FACT d JD) as (x1 & x2 & X1 & X2 & _ & _ & _ & _ & G'). 
        destruct G as (_ & _ & _ & G & _).
        assert (DEC : c1 = CPart 1 \/ c1 <> CPart 1) by (destruct c1 as [r|k' v'|k' v'|z]; try (right; discriminate); destruct (Z.eq_dec z 1) as [->|]; [left; reflexivity|right; congruence]).
        destruct DEC as [DEC|DEC].
        + left. destruct (G c E DEC) as [-> _]. exists c1. split; [exact C1|]. rewrite DEC. reflexivity.
        + right. exists c1. split; [exact C1|]. rewrite <- (CHL DEC). destruct (LEN d JD) as (y1 & y2 & yr & Y1 & Y2 & _ & _ & _ & _ & _ & Y & _). rewrite C1 in Y1. rewrite C2 in Y2.
          injection Y1 as <-. injection Y2 as <-. exact Y.
      - intros X Y. rewrite (dim_len_fun _ _ _ _ Cr Y), Nr in X. exact X. }
    split.
    + intros Q d k J K. destruct (KEEP n N) as [(K1 & K2 & K3)|[K1 _]]; [|contradiction].
      assert (C1 : assoc n (cm_coords (p_cm p2)) <> None) by (intros Z; rewrite Z in K1; cbn in K1; contradiction).
      pose proof (proj1 KP C1 d k J K) as (c1 & X1 & X2). pose proof (INP n ds d M0 J) as Jp. assert (JD : In d D) by (apply in_all_dims; auto).
      destruct (LEN d JD) as (y1 & y2 & cr & Y1 & Y2 & _ & _ & _ & Cr & Nr & Nc & _). rewrite X1 in Y1. injection Y1 as <-.
      destruct (assoc n (cm_coords (p_cm p2))) as [m2|] eqn:C2; [|congruence]. destruct (ln_assoc _ _ _ _ L1 n m2 N C2) as (_ & _ & _ & _ & DM).
      exists cr. split; [exact Cr|]. rewrite Nr, <- Nc, <- X2. apply (K3 ds d c1 y2); auto. rewrite DM. exact M0.
    + intros Q. assert (C1 : assoc n (cm_coords (p_cm p2)) <> None).
      { apply KP. intros d k J K. pose proof (INP n ds d M0 J) as Jp. assert (JD : In d D) by (apply in_all_dims; auto).
        destruct (TRI d k J K) as [[X|X] _]; [exact X|]. pose proof (Q d k J K) as Y. destruct (LEN d JD) as (y1 & y2 & cr & _ & _ & _ & _ & _ & Cr & Nr & _).
        rewrite (dim_len_fun _ _ _ _ Cr Y), Nr. exact X. }
      destruct (KEEP n N) as [(K1 & _)|[_ (ds' & d & c1 & c2 & M2 & J & X1 & X2 & NE)]]; [rewrite K1; destruct (assoc n (cm_coords (p_cm p2))); [discriminate|congruence]|].
      exfalso. destruct (assoc n (cm_coords (p_cm p2))) as [m2|] eqn:C2; [|congruence]. destruct (ln_assoc _ _ _ _ L1 n m2 N C2) as (_ & _ & _ & _ & DM).
      rewrite DM, M0 in M2. injection M2 as <-. pose proof (INP n ds d M0 J) as Jp. assert (JD : In d D) by (apply in_all_dims; auto).
      destruct (dim_coord_in _ d (wp_cm _ Wp) Jp) as (c & E & Cc & _). assert (K : dim_len (p_cm p) d (c_len c)) by (exists c; auto).
      pose proof (Q d _ J K) as Y. pose proof (proj1 KP C1 d _ J K) as Z.
      destruct (LEN d JD) as (y1 & y2 & cr & Y1 & Y2 & _ & _ & _ & Cr & Nr & Nc & _). rewrite X1 in Y1. rewrite X2 in Y2. injection Y1 as <-. injection Y2 as <-.
      pose proof (dim_len_fun _ _ _ _ Cr Y). pose proof (dim_len_fun _ _ _ _ X1 Z). lia.
Qed.
End All.
