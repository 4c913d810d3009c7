(** Lemmas behind BinOpProps.v: aligning two patches, continued. *)
From Verif Require Import Base BaseFacts CoordModel CoordSpec CoordProofs CoordProofs2 CoordProofs3
  CoordProofs4 CoordProofs5 NdModel NdSpec NdProofs NdProofs2 NdProofs3 FrameModel FrameProofs5 ChunkModel CmModel CmSpec
  CmProofs CmProofs2 CmProofs3 CmProofs4 CmProofs8 CmProofs10 CmProofs12 CmProofs13 CmProofs15 BinOpModel BinOpSpec BinOpProofs BinOpProofs2 BinOpProofs3 BinOpProofs4.
From Coq Require Import Strings.String ZifyBool Sorting.Permutation Sorting.Sorted.
Ltac Zify.zify_post_hook ::= Z.div_mod_to_equations.
Local Open Scope Z_scope.
Local Open Scope list_scope.

Lemma dim_coord_in cm d : wf_cm cm -> In d (cm_dims cm) ->
  exists c, dim_coord cm d = Some c /\ assoc d (cm_coords cm) = Some (M1 c) /\ wf_coord c.
Proof.
  intros W J. destruct (wf_dim_coord cm d W J) as (c & C & Wc & _). exists c. unfold dim_coord.
  rewrite (proj2 (mem_In' _ _) J), C. auto.
Qed.
Lemma dim_coord_out cm d : ~ In d (cm_dims cm) -> dim_coord cm d = None.
Proof. intros N. unfold dim_coord. destruct (mem d (cm_dims cm)) eqn:M; [apply mem_In' in M; contradiction|reflexivity]. Qed.
Lemma dim_coord_some cm d c : dim_coord cm d = Some c -> In d (cm_dims cm) /\ assoc d (cm_coords cm) = Some (M1 c).
Proof.
  unfold dim_coord. destruct (mem d (cm_dims cm)) eqn:M; [|discriminate]. apply mem_In' in M.
  destruct (assoc d (cm_coords cm)) as [[c'| |]|]; try discriminate. intros [= <-]. auto.
Qed.

(** How positions of the aligned operands come from those of the operands. *)
Definition pairing (a b : cman) (vs ps1 ps2 : string -> list Z) (d : string) : Prop :=
  match dim_coord a d, dim_coord b d with
  | Some c, Some c' =>
      if stretches c || stretches c' then ps1 d = zrange (c_len c) /\ ps2 d = zrange (c_len c')
      else gather (c_ints c) (ps1 d) = Some (vs d) /\ gather (c_ints c') (ps2 d) = Some (vs d)
  | Some c, None => ps1 d = zrange (c_len c)
  | None, Some c' => ps2 d = zrange (c_len c')
  | None, None => False
  end.

Lemma m_approx_dims c c' : m_approx (M1 c) (M1 c') = true ->
  (concrete c /\ concrete c' /\ Forall2 (close_values (c_kind c')) (c_ints c) (c_ints c')) \/ exists n, c = CPart n /\ c' = CPart n.
Proof.
  unfold m_approx. cbn [m_shape]. intros H. apply andb_true_iff in H as [S H].
  destruct c, c'; try discriminate; try (left; split; [exact I|]; split; [exact I|]; apply all_pairs_close_spec; exact H).
  right. apply zlist_eqb_eq in S. cbn in S. injection S as ->. eauto.
Qed.

Section Pair.
Context {A B : Type} (argsort : list Z -> list Z) (p : patch A) (q : patch B).
Hypothesis VA : valid_argsort argsort.
Hypothesis Wp : wf_patch p.
Hypothesis Wq : wf_patch q.
Hypothesis OP : operands (p_cm p) (p_cm q).
Let D := all_dims (cm_dims (p_cm p)) (cm_dims (p_cm q)).

Lemma pair_plain n : In n (map fst (cm_coords (p_cm p))) \/ In n (map fst (cm_coords (p_cm q))) \/ In n D -> limit_key D n = false.
Proof.
  intros H. apply (limit_key_sub _ (cm_dims (p_cm p) ++ cm_dims (p_cm q))).
  - pose proof (wp_some _ Wp) as N. unfold D, all_dims. destruct (cm_dims (p_cm p)); [congruence|discriminate].
  - intros d J. apply in_all_dims in J. apply in_or_app, J.
  - apply (op_names _ _ OP). destruct H as [H|[H|H]]; auto. apply in_all_dims in H.
    destruct H as [H|H]; [left; destruct (wf_dim_coord _ n (wp_cm _ Wp) H) as (c & C & _)|right; destruct (wf_dim_coord _ n (wp_cm _ Wq) H) as (c & C & _)];
    apply assoc_In; eauto.
Qed.

Lemma pair_fast : cm_approx (p_cm p) (p_cm q) = true -> cm_dims (p_cm p) = cm_dims (p_cm q) /\
  forall d c c', dim_coord (p_cm p) d = Some c -> dim_coord (p_cm q) d = Some c' ->
    (comparable c c' /\ c_ints c = c_ints c') \/ (c = CPart 1 /\ c' = CPart 1).
Proof.
  intros H. unfold cm_approx in H. rewrite !andb_true_iff in H. destruct H as ((((S1 & S2) & _) & _) & F).
  rewrite subset_spec in S1, S2. rewrite forallb_forall in F.
  assert (K : forall d c c', dim_coord (p_cm p) d = Some c -> dim_coord (p_cm q) d = Some c' ->
    (comparable c c' /\ c_ints c = c_ints c') \/ (c = CPart 1 /\ c' = CPart 1)).
  { intros d c c' E E'. pose proof (op_match _ _ OP d) as M. rewrite E, E' in M. cbn [matches] in M.
    apply dim_coord_some in E as [J C]. apply dim_coord_some in E' as [J' C'].
    specialize (F d). rewrite C, C' in F. assert (X : m_approx (M1 c) (M1 c') = true).
    { apply F. unfold public_names. apply filter_In. split; [apply assoc_In; eauto|]. rewrite (proj2 (mem_In' _ _) J). reflexivity. }
    apply m_approx_dims in X. destruct M as [M|[[M L]|[M L]]].
    - left. split; [exact M|]. destruct X as [(_ & _ & X)|(n & -> & ->)]; [|reflexivity]. apply (cmp_apart _ _ M). rewrite (cmp_kind _ _ M). exact X.
    - right. apply stretches_part in M. subst c. destruct X as [([] & _)|(n & [= <-] & ->)]. auto.
    - right. apply stretches_part in M. subst c'. destruct X as [(_ & [] & _)|(n & -> & [= <-])]. auto. }
  split; [|exact K]. destruct (op_order _ _ OP) as [E|(d & [[J N]|[[J N]|(c & c' & E & E' & N)]])]; [exact E|destruct (N (S1 d J))|destruct (N (S2 d J))|].
  destruct (K d c c' E E') as [[_ X]|[-> ->]]; [contradiction|destruct N; reflexivity].
Qed.

Lemma pair_aligned : exists p2 q2 ps1 ps2 vs, align_patches argsort p q = Ok (p2, q2) /\
  lined p p2 D ps1 /\ lined q q2 D ps2 /\ is_common (p_cm p) (p_cm q) vs /\
  forall d, In d D -> pairing (p_cm p) (p_cm q) vs ps1 ps2 d.
Proof.
  pose proof (wf_dims _ (wp_cm _ Wp)) as N1. pose proof (wf_dims _ (wp_cm _ Wq)) as N2.
  unfold align_patches. destruct (cm_approx (p_cm p) (p_cm q)) eqn:FA.
  - destruct (pair_fast FA) as [DD K].
    assert (ED : D = cm_dims (p_cm p)).
    { unfold D, all_dims. rewrite <- DD. replace (filter _ _) with (@nil string); [apply app_nil_r|]. symmetry.
      assert (G : forall l, (forall d, In d l -> In d (cm_dims (p_cm p))) -> filter (fun d => negb (mem d (cm_dims (p_cm p)))) l = []); [|apply G; auto].
      induction l as [|d t IH]; intros G; cbn; [reflexivity|]. rewrite (proj2 (mem_In' _ _) (G d (or_introl eq_refl))). cbn. apply IH. intros x X. apply G. right. exact X. }
    assert (PL : forall n, In n (map fst (cm_coords (p_cm p))) \/ In n (map fst (cm_coords (p_cm q))) -> limit_key (cm_dims (p_cm p)) n = false).
    { intros n J. rewrite <- ED. apply pair_plain. tauto. }
    exists p, q, (pick0 (p_cm p)), (pick0 (p_cm q)), (fun d => match dim_coord (p_cm p) d with Some c => c_ints c | None => [] end).
    split; [reflexivity|]. split; [rewrite ED; apply lined_self; [exact Wp|intros n J; apply PL; auto]|].
    split; [rewrite ED, DD; apply lined_self; [exact Wq|intros n J; rewrite <- DD; apply PL; auto]|]. split.
    + intros d c c' E E' S S'. rewrite E. destruct (K d c c' E E') as [[_ X]|[-> ->]]; [|discriminate]. left. auto.
    + intros d J. rewrite ED in J. destruct (dim_coord_in _ d (wp_cm _ Wp) J) as (c & E & C & Wc). rewrite DD in J.
      destruct (dim_coord_in _ d (wp_cm _ Wq) J) as (c' & E' & C' & Wc'). unfold pairing. rewrite E, E'. unfold pick0. rewrite C, C'.
      destruct (K d c c' E E') as [[M X]|[-> ->]]; [|split; reflexivity].
      rewrite (concrete_stretches c (cmp_left _ _ M)), (concrete_stretches c' (cmp_right _ _ M)). cbn [orb].
      rewrite <- (c_ints_len c (wf_okc _ Wc) (cmp_left _ _ M)), <- (c_ints_len c' (wf_okc _ Wc') (cmp_right _ _ M)), !gather_zrange. rewrite X. auto.
  - set (shared := filter (fun d => mem d (cm_dims (p_cm q))) (cm_dims (p_cm p))).
    assert (IS : forall d, In d shared <-> In d (cm_dims (p_cm p)) /\ In d (cm_dims (p_cm q))).
    { intros d. unfold shared. rewrite filter_In, mem_In'. tauto. }
    assert (SN : shared <> []) by (destruct (op_shared _ _ OP) as (d & J); apply IS in J; intros Z; rewrite Z in J; destruct J).
    rewrite merge_tuples_all by assumption. fold D.
    assert (NDD : NoDup D) by (apply all_dims_NoDup; assumption).
    assert (SP : forall d, In d (cm_dims (p_cm p)) -> In d D) by (intros d J; apply in_all_dims; auto).
    assert (SQ : forall d, In d (cm_dims (p_cm q)) -> In d D) by (intros d J; apply in_all_dims; auto).
    assert (NP : forall d, In d D -> ~ In d (cm_dims (p_cm p)) -> ~ In d (map fst (cm_coords (p_cm p)))).
    { intros d J N. apply in_all_dims in J. destruct J as [J|J]; [contradiction|]. apply (op_left _ _ OP d J N). }
    assert (NQ : forall d, In d D -> ~ In d (cm_dims (p_cm q)) -> ~ In d (map fst (cm_coords (p_cm q)))).
    { intros d J N. apply in_all_dims in J. destruct J as [J|J]; [|contradiction]. apply (op_right _ _ OP d J N). }
    assert (PP : forall n, In n (map fst (cm_coords (p_cm p))) \/ In n D -> limit_key D n = false) by (intros n J; apply pair_plain; tauto).
    assert (PQ : forall n, In n (map fst (cm_coords (p_cm q))) \/ In n D -> limit_key D n = false) by (intros n J; apply pair_plain; tauto).
    destruct (side_widen p D Wp NDD SP NP PP) as (p1 & EW1 & L1 & AG1).
    destruct (side_widen q D Wq NDD SQ NQ PQ) as (q1 & EW2 & L2 & AG2).
    pose proof (ln_wf _ _ _ _ L1) as W1. pose proof (ln_wf _ _ _ _ L2) as W2.
    assert (DC1 : forall d, In d (cm_dims (p_cm p)) -> exists c c1, dim_coord (p_cm p) d = Some c /\ assoc d (cm_coords (p_cm p)) = Some (M1 c) /\ wf_coord c /\
       assoc d (cm_coords (p_cm p1)) = Some (M1 c1) /\ again (M1 c) (M1 c1) /\ wf_coord c1 /\ c_len c1 = c_len c /\ carried1 c c1 (zrange (c_len c))).
    { intros d J. destruct (dim_coord_in _ d (wp_cm _ Wp) J) as (c & E & C & Wc). destruct (AG1 d _ C) as (m & C1 & AG).
      destruct (again_1 c m Wc AG) as (c1 & -> & L & Ca). exists c, c1. do 5 (split; [assumption|]). split; [apply (wf_vals _ (wp_cm _ W1) _ _ C1)|]. auto. }
    assert (DC2 : forall d, In d (cm_dims (p_cm q)) -> exists c c1, dim_coord (p_cm q) d = Some c /\ assoc d (cm_coords (p_cm q)) = Some (M1 c) /\ wf_coord c /\
       assoc d (cm_coords (p_cm q1)) = Some (M1 c1) /\ again (M1 c) (M1 c1) /\ wf_coord c1 /\ c_len c1 = c_len c /\ carried1 c c1 (zrange (c_len c))).
    { intros d J. destruct (dim_coord_in _ d (wp_cm _ Wq) J) as (c & E & C & Wc). destruct (AG2 d _ C) as (m & C1 & AG).
      destruct (again_1 c m Wc AG) as (c1 & -> & L & Ca). exists c, c1. do 5 (split; [assumption|]). split; [apply (wf_vals _ (wp_cm _ W2) _ _ C1)|]. auto. }
    set (f := align_dim argsort (p_cm p1) (p_cm q1)).
    (* what the loop does for one shared dimension *)
    assert (LOOP : forall d c c' c1 c2, In d shared -> dim_coord (p_cm p) d = Some c -> dim_coord (p_cm q) d = Some c' ->
       assoc d (cm_coords (p_cm p1)) = Some (M1 c1) -> assoc d (cm_coords (p_cm q1)) = Some (M1 c2) ->
       stretches c1 = stretches c /\ stretches c2 = stretches c' /\
       (stretches c || stretches c' = false -> concrete c /\ concrete c' /\ concrete c1 /\ concrete c2 /\ c_ints c1 = c_ints c /\ c_ints c2 = c_ints c') /\
       ((f d = Ok [] /\
         ((concrete c1 /\ concrete c2 /\ c_ints c1 = c_ints c2) \/ ((stretches c1 = true \/ stretches c2 = true) /\ c1 = c2))) \/
        exists a, f d = Ok [(d, a)] /\ al_good c1 c2 a)).
    { intros d c c' c1 c2 J E E' C1 C2. apply IS in J as [J J'].
      destruct (DC1 d J) as (x & x1 & Ex & Cx & Wx & Cx1 & AGx & Wx1 & _). rewrite E in Ex. injection Ex as <-. rewrite C1 in Cx1. injection Cx1 as <-.
      destruct (DC2 d J') as (y & y1 & Ey & Cy & Wy & Cy1 & AGy & Wy1 & _). rewrite E' in Ey. injection Ey as <-. rewrite C2 in Cy1. injection Cy1 as <-.
      pose proof (again_stretches _ _ Wx AGx) as S1. pose proof (again_stretches _ _ Wy AGy) as S2.
      split; [exact S1|]. split; [exact S2|]. pose proof (op_match _ _ OP d) as M. rewrite E, E' in M. cbn [matches] in M.
      assert (Q : comparable c c' -> concrete c1 /\ c_ints c1 = c_ints c /\ c_kind c1 = c_kind c /\ concrete c2 /\ c_ints c2 = c_ints c' /\ c_kind c2 = c_kind c').
      { intros X. destruct (again_same c _ Wx (cmp_left _ _ X) (proj1 (cmp_spread _ _ X)) AGx) as (z & [= <-] & Z1 & Z2 & Z3).
        destruct (again_same c' _ Wy (cmp_right _ _ X) (proj2 (cmp_spread _ _ X)) AGy) as (z' & [= <-] & Z1' & Z2' & Z3'). auto 8. }
      split.
      - intros S. apply orb_false_iff in S as [Sa Sb]. destruct M as [X|[[X _]|[X _]]]; [|congruence|congruence].
        destruct (Q X) as (K1 & K2 & _ & K4 & K5 & _). split; [apply (cmp_left _ _ X)|]. split; [apply (cmp_right _ _ X)|]. auto.
      - apply align_dim_ok; auto. destruct M as [X|[[X _]|[X _]]]; [|right; left; congruence|right; right; congruence].
        left. destruct (Q X) as (K1 & K2 & K3 & K4 & K5 & K6). split; [exact K1|]. split; [exact K4|]. rewrite K2, K5. split; [apply (cmp_nodup _ _ X)|]. split; [apply (cmp_nodup _ _ X)|].
        intros CF. destruct CF as [CF|(k & v & w & Hv & Hw & F)]; [congruence|]. apply (cmp_apart _ _ X). rewrite <- K2, <- K5, <- K3.
        destruct Hv as [-> | ->], Hw as [-> | ->]; exact F. }
    destruct (map_result_concat f shared) as (als & EA & NDA & SA).
    { apply NoDup_filter', N1. }
    { intros d J. destruct (proj1 (IS d) J) as [Jp Jq]. destruct (DC1 d Jp) as (c & c1 & E & _ & _ & C1 & _). destruct (DC2 d Jq) as (c' & c2 & E' & _ & _ & C2 & _).
      destruct (LOOP d c c' c1 c2 J E E' C1 C2) as (_ & _ & _ & [[X _]|(a & X & _)]); eauto. }
    set (al := List.concat als) in *.
    set (ps1 := fun d => match assoc d al with
                         | Some a => match assoc d (cm_coords (p_cm p1)) with
                                     | Some (M1 c1) => match indexer_positions (c_len c1) (al_i1 a) with Some ps => ps | None => [] end
                                     | _ => [] end
                         | None => pick0 (p_cm p1) d end).
    set (ps2 := fun d => match assoc d al with
                         | Some a => match assoc d (cm_coords (p_cm q1)) with
                                     | Some (M1 c1) => match indexer_positions (c_len c1) (al_i2 a) with Some ps => ps | None => [] end
                                     | _ => [] end
                         | None => pick0 (p_cm q1) d end).
    set (vs := fun d => match dim_coord (p_cm p) d with
                        | Some c => match gather (c_ints c) (ps1 d) with Some v => v | None => [] end
                        | None => [] end).
    assert (NONE : forall d, ~ In d shared -> assoc d al = None).
    { intros d N. destruct (assoc d al) as [a|] eqn:Q; [|reflexivity]. apply SA in Q as [J _]. contradiction. }
    assert (PAIR : forall d c c', In d shared -> dim_coord (p_cm p) d = Some c -> dim_coord (p_cm q) d = Some c' ->
       pairing (p_cm p) (p_cm q) vs ps1 ps2 d /\
       (stretches c = false -> stretches c' = false -> common_labels (c_ints c) (c_ints c') (vs d)) /\
       (forall a, assoc d al = Some a -> exists c1 c2, assoc d (cm_coords (p_cm p1)) = Some (M1 c1) /\ assoc d (cm_coords (p_cm q1)) = Some (M1 c2) /\
          okc (al_c1 a) /\ okc (al_c2 a) /\ indexer_positions (c_len c1) (al_i1 a) = Some (ps1 d) /\ indexer_positions (c_len c2) (al_i2 a) = Some (ps2 d) /\
          zlen (ps1 d) = c_len (al_c1 a) /\ zlen (ps2 d) = c_len (al_c2 a) /\ carried1 c (al_c1 a) (ps1 d) /\ carried1 c' (al_c2 a) (ps2 d))).
    { intros d c c' J E E'. destruct (proj1 (IS d) J) as [Jp Jq].
      destruct (DC1 d Jp) as (x & c1 & Ex & Cx & Wx & C1 & AGx & Wx1 & Lx & Cax). rewrite E in Ex. injection Ex as <-.
      destruct (DC2 d Jq) as (y & c2 & Ey & Cy & Wy & C2 & AGy & Wy1 & Ly & Cay). rewrite E' in Ey. injection Ey as <-.
      destruct (LOOP d c c' c1 c2 J E E' C1 C2) as (S1 & S2 & CC & X). unfold pairing. rewrite E, E'.
      destruct X as [[X Y]|(a & X & O1 & O2 & qs1 & qs2 & I1 & I2 & Z1 & Z2 & G)].
      - assert (Q : assoc d al = None). { destruct (assoc d al) as [b|] eqn:Q; [|reflexivity]. apply SA in Q as [_ Q]. congruence. }
        assert (P1 : ps1 d = zrange (c_len c)) by (unfold ps1; rewrite Q; unfold pick0; rewrite C1, Lx; reflexivity).
        assert (P2 : ps2 d = zrange (c_len c')) by (unfold ps2; rewrite Q; unfold pick0; rewrite C2, Ly; reflexivity).
        destruct (stretches c || stretches c') eqn:S.
        + split; [auto|]. split; [intros Sa Sb; rewrite Sa, Sb in S; discriminate|]. rewrite Q. discriminate.
        + destruct (CC eq_refl) as (K1 & K2 & K3 & K4 & K5 & K6).
          assert (EQ : c_ints c = c_ints c').
          { destruct Y as [(_ & _ & Y)|[Y _]]; [congruence|]. apply concrete_stretches in K3, K4. destruct Y; congruence. }
          assert (V : vs d = c_ints c).
          { unfold vs. rewrite E, P1, <- (c_ints_len c (wf_okc _ Wx) K1), gather_zrange. reflexivity. }
          rewrite V, P1, P2, <- (c_ints_len c (wf_okc _ Wx) K1), <- (c_ints_len c' (wf_okc _ Wy) K2), !gather_zrange.
          split; [rewrite EQ; auto|]. split; [intros _ _; left; auto|]. rewrite Q. discriminate.
      - assert (Q : assoc d al = Some a) by (apply SA; auto).
        assert (P1 : ps1 d = qs1) by (unfold ps1; rewrite Q, C1, I1; reflexivity).
        assert (P2 : ps2 d = qs2) by (unfold ps2; rewrite Q, C2, I2; reflexivity).
        destruct G as [(Sor & A1 & A2 & R1 & R2)|(K3 & K4 & common & AS & IN & G1 & G2 & R1 & R2)].
        + assert (S : stretches c || stretches c' = true) by (rewrite S1, S2 in Sor; apply orb_true_iff; exact Sor). rewrite S.
          split; [split; congruence|]. split; [intros Sa Sb; rewrite Sa, Sb in S; discriminate|].
          intros b Qb. rewrite Q in Qb. injection Qb as <-. exists c1, c2. rewrite P1, P2. repeat (split; [assumption|]).
          split; [rewrite A1, R1, Lx; exact Cax|rewrite A2, R2, Ly; exact Cay].
        + assert (S : stretches c || stretches c' = false) by (rewrite <- S1, <- S2, (concrete_stretches c1 K3), (concrete_stretches c2 K4); reflexivity). rewrite S.
          destruct (CC S) as (K1 & K2 & _ & _ & K5 & K6). rewrite K5 in *. rewrite K6 in *.
          assert (V : vs d = common) by (unfold vs; rewrite E, P1, G1; reflexivity). rewrite V, P1, P2.
          split; [auto|]. split; [intros _ _; right; auto|].
          intros b Qb. rewrite Q in Qb. injection Qb as <-. exists c1, c2. repeat (split; [assumption|]).
          split; [destruct c; cbn [carried1]; try contradiction; eauto|destruct c'; cbn [carried1]; try contradiction; eauto]. }
    assert (TOG : forall p2 q2, lined p p2 D ps1 -> lined q q2 D ps2 -> 
      exists p2' q2' ps1' ps2' vs', Ok (p2, q2) = Ok (p2', q2') /\ lined p p2' D ps1' /\ lined q q2' D ps2' /\
        is_common (p_cm p) (p_cm q) vs' /\ forall d, In d D -> pairing (p_cm p) (p_cm q) vs' ps1' ps2' d).
    { intros p2 q2 X Y. exists p2, q2, ps1, ps2, vs. split; [reflexivity|]. split; [exact X|]. split; [exact Y|]. split.
      - intros d c c' E E' Sa Sb. assert (In d shared) as J by (apply IS; apply dim_coord_some in E, E'; tauto).
        apply (PAIR d c c' J E E'); assumption.
      - intros d J. destruct (in_dec string_dec d (cm_dims (p_cm p))) as [Jp|Jp], (in_dec string_dec d (cm_dims (p_cm q))) as [Jq|Jq].
        + destruct (dim_coord_in _ d (wp_cm _ Wp) Jp) as (c & E & _). destruct (dim_coord_in _ d (wp_cm _ Wq) Jq) as (c' & E' & _).
          apply (PAIR d c c'); auto. apply IS. auto.
        + destruct (DC1 d Jp) as (c & c1 & E & _ & _ & C1 & _ & _ & L & _). unfold pairing. rewrite E, (dim_coord_out _ d Jq).
          unfold ps1. rewrite (NONE d) by (rewrite IS; tauto). unfold pick0. rewrite C1, L. reflexivity.
        + destruct (DC2 d Jq) as (c & c1 & E & _ & _ & C1 & _ & _ & L & _). unfold pairing. rewrite E, (dim_coord_out _ d Jp).
          unfold ps2. rewrite (NONE d) by (rewrite IS; tauto). unfold pick0. rewrite C1, L. reflexivity.
        + apply in_all_dims in J. tauto. }
    destruct shared as [|s0 sr] eqn:ES; [congruence|]. rewrite <- ES in *. clear ES s0 sr.
    rewrite EW1, EW2. cbn [bind]. fold f. rewrite EA. cbn [bind]. fold al.
    assert (AI1 : forall d, assoc d (map (fun e => (fst e, al_i1 (snd e))) al) = option_map al_i1 (assoc d al)).
    { intros d. rewrite (assoc_map (fun e => al_i1 (snd e)) d al). destruct (assoc d al); reflexivity. }
    assert (AI2 : forall d, assoc d (map (fun e => (fst e, al_i2 (snd e))) al) = option_map al_i2 (assoc d al)).
    { intros d. rewrite (assoc_map (fun e => al_i2 (snd e)) d al). destruct (assoc d al); reflexivity. }
    assert (AC1 : forall d, assoc d (map (fun e => (fst e, al_c1 (snd e))) al) = option_map al_c1 (assoc d al)).
    { intros d. rewrite (assoc_map (fun e => al_c1 (snd e)) d al). destruct (assoc d al); reflexivity. }
    assert (AC2 : forall d, assoc d (map (fun e => (fst e, al_c2 (snd e))) al) = option_map al_c2 (assoc d al)).
    { intros d. rewrite (assoc_map (fun e => al_c2 (snd e)) d al). destruct (assoc d al); reflexivity. }
    destruct (side_align p D Wp SP NP PP p1
       (map (fun e => (fst e, al_c1 (snd e))) al) (map (fun e => (fst e, al_i1 (snd e))) al) ps1 L1 AG1) as (p2 & E2 & LP2).
    { rewrite map_map. exact NDA. }
    { intros d c0 Q. rewrite AC1 in Q. destruct (assoc d al) as [a|] eqn:QA; [|discriminate]. cbn [option_map] in Q. injection Q as <-.
      pose proof (proj1 (SA d a) QA) as [J _]. pose proof (proj1 (IS d) J) as [Jp Jq].
      destruct (dim_coord_in _ d (wp_cm _ Wp) Jp) as (c & E & C & _). destruct (dim_coord_in _ d (wp_cm _ Wq) Jq) as (c' & E' & C' & _).
      destruct (PAIR d c c' J E E') as (_ & _ & X). destruct (X a QA) as (c1 & c2 & C1 & C2 & O1 & O2 & I1 & I2 & Z1 & Z2 & R1 & R2).
      split; [exact O1|]. split; [exact Jp|]. exists c, c1, (al_i1 a). rewrite AI1, QA. auto 8. }
    { intros d J Q. rewrite AC1 in Q. destruct (assoc d al) as [a|] eqn:QA; [discriminate|]. rewrite AI1, QA. split; [reflexivity|]. unfold ps1. rewrite QA. reflexivity. }
    destruct (side_align q D Wq SQ NQ PQ q1
       (map (fun e => (fst e, al_c2 (snd e))) al) (map (fun e => (fst e, al_i2 (snd e))) al) ps2 L2 AG2) as (q2 & F2 & LQ2).
    { rewrite map_map. exact NDA. }
    { intros d c0 Q. rewrite AC2 in Q. destruct (assoc d al) as [a|] eqn:QA; [|discriminate]. cbn [option_map] in Q. injection Q as <-.
      pose proof (proj1 (SA d a) QA) as [J _]. pose proof (proj1 (IS d) J) as [Jp Jq].
      destruct (dim_coord_in _ d (wp_cm _ Wp) Jp) as (c & E & C & _). destruct (dim_coord_in _ d (wp_cm _ Wq) Jq) as (c' & E' & C' & _).
      destruct (PAIR d c c' J E E') as (_ & _ & X). destruct (X a QA) as (c1 & c2 & C1 & C2 & O1 & O2 & I1 & I2 & Z1 & Z2 & R1 & R2).
      split; [exact O2|]. split; [exact Jq|]. exists c', c2, (al_i2 a). rewrite AI2, QA. auto 8. }
    { intros d J Q. rewrite AC2 in Q. destruct (assoc d al) as [a|] eqn:QA; [discriminate|]. rewrite AI2, QA. split; [reflexivity|]. unfold ps2. rewrite QA. reflexivity. }
    destruct al as [|a0 ar] eqn:EL.
    + apply TOG; [exact L1|exact L2].
    + rewrite E2. cbn [bind]. rewrite F2. cbn [bind]. apply TOG; assumption.
Qed.
End Pair.
