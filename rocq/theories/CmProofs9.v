(** Lemmas behind CmProps.v: sort, continued. *)
From Verif Require Import Base BaseFacts CoordModel CoordSpec CoordProofs CoordProofs2 CoordProofs3
  CoordProofs4 CoordProofs5 NdModel NdSpec NdProofs NdProofs2 FrameModel FrameProofs5 ChunkModel CmModel CmSpec
  CmProofs CmProofs2 CmProofs3 CmProofs4 CmProofs5 CmProofs6 CmProofs8.
From Coq Require Import Strings.String ZifyBool Sorting.Permutation Sorting.Sorted.
Ltac Zify.zify_post_hook ::= Z.div_mod_to_equations.
Local Open Scope Z_scope.
Local Open Scope list_scope.

Lemma sort_init {A} cm (a : nd A) : wf_patch (mkPatch cm a) -> srt_inv cm a (cm_coords cm, []) (pick0 cm) [] [].
Proof.
  intros WP. pose proof (wp_cm _ WP) as W. cbn [p_cm] in W. split; cbn [fst snd].
  - apply co_init. exact W.
  - exists a. split; [reflexivity|]. rewrite (dims_shape cm _ W (wp_shape _ WP)). apply nd_picked_full. apply (wp_nd _ WP).
  - intros d k H. rewrite (pick0_len _ _ _ H). reflexivity.
  - intros n k v E. left. apply (wf_vals _ W _ _ E).
Qed.

Lemma sort_fold {A} argsort cm (a : nd A) reverse : valid_argsort argsort -> wf_cm cm ->
  forall todo st pick done dd, srt_inv cm a st pick done dd ->
  (forall n, In n todo -> exists c d, assoc n (cm_coords cm) = Some (M1 c) /\ assoc n (cm_dmap cm) = Some [d] /\ ~ In d dd) ->
  separate cm todo ->
  exists st' pick' dd',
    fold_left (fun acc n => do st <- acc; sort_one argsort cm reverse st n) todo (Ok st) = Ok st' /\
    srt_inv cm a st' pick' (rev todo ++ done) dd' /\
    (forall n c d, In n todo -> assoc n (cm_coords cm) = Some (M1 c) -> assoc n (cm_dmap cm) = Some [d] ->
       concrete c -> exists vs, gather (c_ints c) (pick' d) = Some vs /\ sorted_as reverse vs) /\
    (forall d, (forall n, In n todo -> assoc n (cm_dmap cm) <> Some [d]) -> pick' d = pick d).
Proof.
  intros VA W. induction todo as [|n todo IH]; intros st pick done dd I H S.
  - exists st, pick, dd. cbn. split; [reflexivity|]. split; [exact I|]. split; [intros ? ? ? []|auto].
  - destruct (H n (or_introl eq_refl)) as (c & d & E & D & Nd).
    destruct (sort_step argsort cm a reverse st pick done dd n c d VA W I E D Nd) as (st1 & ps & E1 & I1 & So).
    inversion S as [|? ? Ni S']; subst. fold (separate cm todo) in S'.
    assert (DN : forall n', In n' todo -> assoc n' (cm_dmap cm) <> Some [d]).
    { intros n' J Q. apply Ni. apply in_map_iff. exists n'. split; [|exact J]. unfold dims_of. rewrite Q, D. reflexivity. }
    destruct (IH st1 _ (n :: done) (d :: dd) I1) as (st' & pick' & dd' & Ef & I' & S1 & S2).
    + intros n' J. destruct (H n' (or_intror J)) as (c' & d' & E' & D' & Nd').
      exists c', d'. split; [exact E'|]. split; [exact D'|]. intros [<-|J']; [|contradiction].
      apply (DN n' J D').
    + exact S'.
    + exists st', pick', dd'. cbn [fold_left bind]. rewrite E1. split; [exact Ef|].
      split; [cbn [rev]; rewrite <- app_assoc; exact I'|]. split.
      * intros n' c' d' J Ec' D' Cc. destruct J as [<-|J]; [|apply (S1 n' c' d' J Ec' D' Cc)].
        rewrite E in Ec'. injection Ec' as <-. rewrite D in D'. injection D' as <-.
        rewrite (S2 d DN), upd_same. apply So. exact Cc.
      * intros d1 N1. rewrite S2 by (intros n' J; apply N1; right; exact J).
        apply upd_other. intros ->. apply (N1 n (or_introl eq_refl) D).
Qed.

(** What the fold leaves is accepted by the validator and aligned. *)
Lemma sort_build {A} cm (a : nd A) st pick done dd : wf_patch (mkPatch cm a) -> srt_inv cm a st pick done dd ->
  let out := mkCm (cm_dims cm) (fst st) (cm_dmap cm) in
  build_cm (cm_dims cm) (fst st) (cm_dmap cm) = Ok out /\ consistent out /\
  cm_aligned cm out pick (own0 cm) /\
  Forall2 (dim_len out) (cm_dims cm) (nd_shape a) /\
  ((forall n, ~ dragged cm done n) -> wf_cm out).
Proof.
  intros WP I out. pose proof (wp_cm _ WP) as W. cbn [p_cm] in W. pose proof (si_co _ _ _ _ _ _ I) as CI.
  assert (PL : forall d k, dim_len cm d k -> zlen (pick d) = k).
  { intros d k H. pose proof (si_perm _ _ _ _ _ _ I d k H) as Pm. unfold zlen. rewrite (Permutation_length Pm).
    fold (zlen (zrange k)). rewrite zlen_zrange. destruct H as (c & E & <-).
    pose proof (c_len_nonneg c (wf_vals _ W _ _ E)). lia. }
  assert (BACK : forall n m', assoc n (fst st) = Some m' ->
     exists m, assoc n (cm_coords cm) = Some m /\ okm m' /\ carried m m' (picks_of cm pick (own0 cm) n) /\ m_shape m' = m_shape m).
  { intros n m' E. assert (In n (map fst (cm_coords cm))) as J by (rewrite <- (ci_keys _ _ _ _ _ _ CI); apply assoc_In; eauto).
    apply assoc_In in J. destruct J as [m J]. destruct (ci_coord _ _ _ _ _ _ CI n m J) as (m2 & A1 & A2 & A3 & _).
    rewrite E in A1. injection A1 as <-. exists m. split; [exact J|]. split; [exact A2|]. split; [exact A3|].
    rewrite (carried_shape _ _ _ A2 A3). destruct (wf_lookup cm n m W J) as (ds & D & _ & Fd).
    pose proof (picks0 cm n m W J) as P0. unfold picks_of in *. rewrite D in *.
    assert (Nn : Forall (fun k => 0 <= k) (m_shape m)).
    { pose proof (wf_vals _ W _ _ J) as Wm. destruct m as [c|k b|s]; cbn in *; [constructor; [apply c_len_nonneg; exact Wm|constructor]|apply Wm|apply Wm]. }
    destruct ds as [|d ds]; [rewrite P0; apply map_zlen_full; exact Nn|].
    destruct Fd as [Fd|Fd]; [discriminate|]. clear - Fd PL. induction Fd; cbn [map]; [reflexivity|].
    rewrite (PL _ _ H), IHFd. reflexivity. }
  assert (DL : forall d k, dim_len cm d k -> dim_len out d k).
  { intros d k (c & E & L). destruct (ci_coord _ _ _ _ _ _ CI d _ E) as (m' & A1 & A2 & A3 & _).
    destruct (BACK d m' A1) as (m & Em & _ & _ & SH). rewrite E in Em. injection Em as <-.
    destruct A3 as (c' & q & -> & _ & _). exists c'. split; [exact A1|]. cbn in SH. congruence. }
  assert (CON : consistent out).
  { destruct (wf_con _ W) as [C1 C2]. split; cbn [out cm_dims cm_coords cm_dmap].
    - intros d J. destruct (C1 d J) as [[c E] D]. split; [|exact D].
      destruct (DL d (c_len c)) as (c' & E' & _); [exists c; auto|]. eauto.
    - intros n ds D. destruct (C2 n ds D) as (m & E & S & F).
      destruct (ci_coord _ _ _ _ _ _ CI n m E) as (m' & A1 & _). destruct (BACK n m' A1) as (m0 & E0 & _ & _ & SH).
      rewrite E in E0. injection E0 as <-. exists m'. split; [exact A1|]. split; [exact S|].
      rewrite SH. destruct F as [F|F]; [left; exact F|right]. eapply Forall2_impl; [|exact F]. exact DL. }
  split.
  { apply build_cm_accepted. apply (consistent_accepted out CON (wf_dkeys _ W)). }
  split; [exact CON|]. split.
  { split; [reflexivity|]. split; [reflexivity|]. intros n. cbn [out cm_coords].
    destruct (assoc n (cm_coords cm)) as [m|] eqn:E.
    - destruct (ci_coord _ _ _ _ _ _ CI n m E) as (m' & -> & _ & C & _). exact C.
    - assert (assoc n (fst st) = None) as ->; [|exact Logic.I].
      apply assoc_None. rewrite (ci_keys _ _ _ _ _ _ CI). apply assoc_None. exact E. }
  split.
  { eapply Forall2_impl; [|exact (wp_shape _ WP)]. exact DL. }
  intros NDr. split; cbn [out cm_dims cm_coords cm_dmap].
  - exact CON.
  - apply (wf_dims _ W).
  - rewrite (ci_keys _ _ _ _ _ _ CI). apply (wf_ckeys _ W).
  - apply (wf_dkeys _ W).
  - rewrite (ci_keys _ _ _ _ _ _ CI). apply (wf_keys _ W).
  - apply (wf_distinct _ W).
  - intros n m' E. destruct (BACK n m' E) as (m & Em & K & C & SH). pose proof (wf_vals _ W _ _ Em) as Wm.
    destruct m' as [c'|k b|s]; cbn [wf_mcoord okm] in *; [| |exact K].
    + assert (exists c0, m = M1 c0) as [c0 ->].
      { destruct m as [c0|? ?|?]; [eauto| |destruct C; discriminate]. cbn in C.
        destruct (_ =? 0); [discriminate|destruct C as (? & ? & _); discriminate]. }
      cbn [m_shape] in SH. injection SH as SH. cbn [wf_mcoord] in Wm.
      assert (LP : concrete c0 -> 0 < c_len c0).
      { destruct c0 as [r|k v|k v|x]; cbn; intros Cc; [destruct Wm; lia| | |destruct Cc].
        - destruct v; [destruct Wm; congruence|]. rewrite zlen_cons. pose proof (zlen_nonneg v). lia.
        - destruct v; [cbn in Wm; congruence|]. rewrite zlen_cons. pose proof (zlen_nonneg v). lia. }
      assert (NP : forall x, c0 = CPart x -> c' = CPart x).
      { intros x ->. destruct C as (c1 & q & [= <-] & _ & C1). cbn in C1, SH. rewrite C1 in SH |- *. cbn in SH. congruence. }
      destruct c' as [r|k v|k v|x]; cbn [wf_coord okc] in *; try exact K.
      * assert (concrete c0) as Cc by (destruct c0; cbn; auto; specialize (NP _ eq_refl); discriminate).
        specialize (LP Cc). cbn in SH. split; [intros ->; rewrite zlen_nil in SH; lia|].
        destruct (si_class _ _ _ _ _ _ I n k v E) as [H|H]; [exact H|destruct (NDr n H)].
      * assert (concrete c0) as Cc by (destruct c0; cbn; auto; specialize (NP _ eq_refl); discriminate).
        specialize (LP Cc). cbn in SH. intros ->. rewrite zlen_nil in SH; lia.
    + destruct m as [c0|k0 a0|s0]; [destruct C as (? & ? & ? & _); discriminate| |destruct C; discriminate].
      cbn [m_shape] in SH. rewrite SH. split; [apply K|]. split; apply Wm.
Qed.

Lemma validate_sort_ok cm names : (forall n, In n names -> exists d, assoc n (cm_dmap cm) = Some [d]) ->
  separate cm names -> validate_sort cm names = Ok tt.
Proof.
  intros H S. unfold validate_sort.
  rewrite (map_result_map _ (dims_of cm)).
  2:{ intros n J. unfold dims_of. destruct (H n J) as [d ->]. reflexivity. }
  cbn [bind].
  assert (existsb (fun ds => 1 <? zlen ds) (map (dims_of cm) names) = false) as ->.
  { apply Bool.not_true_iff_false. intros Q. apply existsb_exists in Q. destruct Q as (ds & J & Q).
    apply in_map_iff in J. destruct J as (n & <- & J). destruct (H n J) as [d E]. unfold dims_of in Q. rewrite E in Q.
    cbn in Q. discriminate. }
  destruct (zlen names =? 1); [reflexivity|].
  assert (has_dup (List.concat (map (dims_of cm) names)) = false) as ->; [|reflexivity].
  assert (Q : forall l, (forall ds, In ds l -> exists d, ds = [d]) -> NoDup l -> has_dup (List.concat l) = false /\
     forall x, mem x (List.concat l) = true <-> In [x] l).
  { induction l as [|ds l IH]; intros Hl N; [cbn; split; [reflexivity|intros; split; [discriminate|intros []]]|].
    inversion N as [|? ? Ni N']; subst. destruct (Hl ds (or_introl eq_refl)) as [d ->].
    destruct (IH (fun ds J => Hl ds (or_intror J)) N') as [I1 I2]. cbn [List.concat app has_dup]. rewrite I1, orb_false_r.
    split.
    - apply Bool.not_true_iff_false. rewrite I2. exact Ni.
    - intros x. specialize (I2 x). rewrite mem_In' in *. cbn [In]. rewrite <- I2. split; intros [Q|J]; auto; left; congruence. }
  apply Q; [|exact S]. intros ds J. apply in_map_iff in J. destruct J as (n & <- & J). destruct (H n J) as [d E].
  exists d. unfold dims_of. rewrite E. reflexivity.
Qed.

Lemma dedup_strs_NoDup l : NoDup l -> dedup_strs l = l.
Proof.
  intros N. unfold dedup_strs.
  assert (Q : forall l acc, NoDup (acc ++ l) ->
    fold_left (fun acc x => if mem x acc then acc else acc ++ [x]) l acc = acc ++ l).
  { clear. induction l as [|x l IH]; intros acc N; cbn; [rewrite app_nil_r; reflexivity|].
    assert (mem x acc = false) as ->.
    { apply mem_false. intros J. apply NoDup_remove_2 in N. apply N. apply in_or_app. left; exact J. }
    rewrite IH by (rewrite <- app_assoc; exact N). rewrite <- app_assoc. reflexivity. }
  apply (Q l []). exact N.
Qed.

Lemma m_sorted_values m c reverse : m = M1 c -> wf_coord c -> m_sorted m reverse = true ->
  concrete c /\ sorted_as reverse (c_ints c).
Proof.
  intros -> W S. cbn [m_sorted] in S. pose proof (honest_truthful c (wf_honest c W)) as (T1 & T2 & _).
  split.
  - destruct c; cbn; auto. destruct reverse; cbn in S; discriminate.
  - destruct reverse; cbn [sorted_as].
    + apply descending_weakly, T2, S.
    + apply zsorted_wsorted, ascending_zsorted, T1, S.
Qed.

Lemma pt_sort_one {A} argsort (p : patch A) names reverse : valid_argsort argsort -> wf_patch p ->
  names <> [] -> separate (p_cm p) names ->
  (forall n, In n names -> exists c d, assoc n (cm_coords (p_cm p)) = Some (M1 c) /\
     assoc n (cm_dmap (p_cm p)) = Some [d]) ->
  exists p' pick, pt_sort argsort p names reverse = Ok p' /\
    consistent (p_cm p') /\ cm_aligned (p_cm p) (p_cm p') pick (own0 (p_cm p)) /\
    nd_picked (p_data p) (p_data p') (map pick (cm_dims (p_cm p))) /\
    (forall d k, dim_len (p_cm p) d k -> Permutation (pick d) (zrange k)) /\
    (forall n c d, In n names -> assoc n (cm_coords (p_cm p)) = Some (M1 c) ->
       assoc n (cm_dmap (p_cm p)) = Some [d] ->
       (concrete c -> exists vs, gather (c_ints c) (pick d) = Some vs /\ sorted_as reverse vs) /\
       ((if reverse then c_reverse_sorted c else c_sorted c) = true -> pick d = zrange (c_len c))) /\
    (forall d, (forall n, In n names -> assoc n (cm_dmap (p_cm p)) <> Some [d]) -> pick d = pick0 (p_cm p) d) /\
    ((forall n, ~ dragged (p_cm p) names n) -> wf_patch p').
Proof.
  intros VA WP NE S H. destruct p as [cm a]. cbn [p_cm p_data] in *. pose proof (wp_cm _ WP) as W. cbn [p_cm] in W.
  assert (Hd : forall n, In n names -> exists d, assoc n (cm_dmap cm) = Some [d]).
  { intros n J. destruct (H n J) as (c & d & _ & D). eauto. }
  set (todo := filter (fun n => match assoc n (cm_coords cm) with
                                 | Some m => negb (m_sorted m reverse) | None => false end) names).
  assert (SUB : forall n, In n todo -> In n names) by (intros n J; apply filter_In in J; apply J).
  assert (NDt : NoDup todo) by (apply NoDup_filter, (separate_NoDup _ _ S)).
  assert (St : separate cm todo) by (apply (NoDup_map_in (dims_of cm) todo names); auto).
  assert (REST : forall n c, In n names -> assoc n (cm_coords cm) = Some (M1 c) ->
     (if reverse then c_reverse_sorted c else c_sorted c) = false -> In n todo).
  { intros n c J E Q. apply filter_In. split; [exact J|]. rewrite E. cbn [m_sorted]. rewrite Q. reflexivity. }
  assert (REST2 : forall n c, In n todo -> assoc n (cm_coords cm) = Some (M1 c) ->
     (if reverse then c_reverse_sorted c else c_sorted c) = false).
  { intros n c J E. apply filter_In in J. destruct J as [_ J]. rewrite E in J. cbn [m_sorted] in J.
    destruct (if reverse then _ else _); [discriminate|reflexivity]. }
  assert (SAME : forall n c d, In n names -> assoc n (cm_coords cm) = Some (M1 c) -> assoc n (cm_dmap cm) = Some [d] ->
     ~ In n todo -> forall n', In n' todo -> assoc n' (cm_dmap cm) <> Some [d]).
  { intros n c d J E D Nt n' J' D'. assert (n = n') as ->; [|contradiction].
    assert (Q : forall l, NoDup (map (dims_of cm) l) -> forall x y, In x l -> In y l -> dims_of cm x = dims_of cm y -> x = y).
    { clear. induction l as [|z l IH]; intros N x y X Y Q; [destruct X|]. inversion N as [|? ? Ni N']; subst.
      destruct X as [->|X], Y as [->|Y]; auto.
      - exfalso. apply Ni. rewrite Q. apply in_map. exact Y.
      - exfalso. apply Ni. rewrite <- Q. apply in_map. exact X. }
    apply (Q names S); auto. unfold dims_of. rewrite D, D'. reflexivity. }
  assert (SORTED : forall n c d pick, In n names -> assoc n (cm_coords cm) = Some (M1 c) ->
     (if reverse then c_reverse_sorted c else c_sorted c) = true ->
     assoc n (cm_dmap cm) = Some [d] -> pick d = pick0 cm d ->
     pick d = zrange (c_len c) /\ exists vs, gather (c_ints c) (pick d) = Some vs /\ sorted_as reverse vs).
  { intros n c d pick J E Q D Pd. pose proof (wf_vals _ W _ _ E) as Wc. cbn [wf_mcoord] in Wc.
    destruct (m_sorted_values (M1 c) c reverse eq_refl Wc Q) as [Cc So].
    destruct (wf_1d cm n c W E) as (ds & D' & Hds). rewrite D in D'. injection D' as <-.
    destruct Hds as [Hds|(d' & [= <-] & _ & Ld)]; [discriminate|].
    rewrite Pd, (pick0_len _ _ _ Ld). split; [reflexivity|]. exists (c_ints c). split; [|exact So].
    rewrite <- (wf_len c Wc Cc). apply gather_zrange. }
  unfold pt_sort, cm_sort. cbn [p_cm p_data].
  assert ((match names with [] => cm_dims cm | _ => names end) = names) as -> by (destruct names; congruence).
  rewrite (validate_sort_ok cm names Hd S). cbn [bind].
  assert (forallb (fun n => mem n (map fst (cm_coords cm))) names = true) as ->.
  { apply forallb_forall. intros n J. apply mem_In', assoc_In. destruct (H n J) as (c & d & E & _). eauto. }
  cbn [negb]. fold todo. rewrite (dedup_strs_NoDup todo NDt).
  destruct (sort_fold argsort cm a reverse VA W todo _ _ _ _ (sort_init cm a WP)) as
    (st & pick & dd & Ef & I & S1 & S2).
  { intros n J. destruct (H n (SUB n J)) as (c & d & E & D). exists c, d. auto. }
  { exact St. }
  rewrite app_nil_r in I.
  assert (DONE : forall n, dragged cm (rev todo) n -> dragged cm names n).
  { intros n (n' & k & v & d & H1 & H2 & H3 & H4). exists n', k, v, d. repeat split; auto; try apply H4.
    apply SUB, in_rev. exact H3. }
  destruct (sort_build cm a st pick (rev todo) dd WP I) as (B1 & B2 & B3 & B4 & B5).
  destruct (si_data _ _ _ _ _ _ I) as (b & Eb & Pb).
  assert (PK : (forall n c d, In n names -> assoc n (cm_coords cm) = Some (M1 c) -> assoc n (cm_dmap cm) = Some [d] ->
     (concrete c -> exists vs, gather (c_ints c) (pick d) = Some vs /\ sorted_as reverse vs) /\
     ((if reverse then c_reverse_sorted c else c_sorted c) = true -> pick d = zrange (c_len c)))).
  { intros n c d J E D. destruct (if reverse then c_reverse_sorted c else c_sorted c) eqn:Q.
    - assert (Nt : ~ In n todo) by (intros Jt; specialize (REST2 n c Jt E); congruence).
      destruct (SORTED n c d pick J E Q D) as [R1 R2]; [apply S2; eapply SAME; eauto|]. auto.
    - split; [|discriminate]. intros Cc. apply (S1 n c d); auto. eapply REST; eauto. }
  assert (PK0 : forall d, (forall n, In n names -> assoc n (cm_dmap cm) <> Some [d]) -> pick d = pick0 cm d).
  { intros d N. apply S2. intros n J. apply N, SUB, J. }
  destruct todo as [|t0 todo0] eqn:Et.
  - exists (mkPatch cm a), pick. cbn in Ef. injection Ef as <-. cbn [fst snd] in *. cbn in Eb. injection Eb as <-.
    cbn [p_cm p_data]. split; [reflexivity|]. split; [apply (wf_con _ W)|].
    split; [destruct cm; exact B3|]. split; [exact Pb|]. split; [apply (si_perm _ _ _ _ _ _ I)|]. auto.
  - rewrite <- Et in *. rewrite Ef. cbn [bind]. rewrite B1. cbn [bind].
    pose proof (wp_some _ WP) as Ns. cbn [p_cm] in Ns.
    rewrite (cm_shape_spec cm (nd_shape a) Ns (wp_shape _ WP)). cbn [bind].
    rewrite (cm_shape_spec (mkCm (cm_dims cm) (fst st) (cm_dmap cm)) (nd_shape a) Ns B4). cbn [bind].
    rewrite (proj2 (zlist_eqb_eq _ _) eq_refl). cbn [bind]. rewrite Eb.
    exists (mkPatch (mkCm (cm_dims cm) (fst st) (cm_dmap cm)) b), pick. cbn [p_cm p_data].
    assert (Sb : nd_shape b = nd_shape a).
    { rewrite (proj1 (proj2 Pb)). pose proof (wp_shape _ WP) as F. cbn [p_cm p_data] in F.
      pose proof (si_perm _ _ _ _ _ _ I) as Pm. clear - F Pm W. induction F as [|d k l s D F IH]; cbn [map]; [reflexivity|].
      rewrite IH. f_equal. unfold zlen. rewrite (Permutation_length (Pm d k D)).
      fold (zlen (zrange k)). rewrite zlen_zrange. destruct D as (c & E & <-).
      pose proof (c_len_nonneg c (wf_vals _ W _ _ E)). lia. }
    split.
    { unfold new_patch. rewrite (cm_shape_spec (mkCm (cm_dims cm) (fst st) (cm_dmap cm)) (nd_shape a) Ns B4).
      cbn [bind]. rewrite Sb, (proj2 (zlist_eqb_eq _ _) eq_refl). reflexivity. }
    split; [exact B2|]. split; [exact B3|]. split; [exact Pb|]. split; [apply (si_perm _ _ _ _ _ _ I)|].
    split; [exact PK|]. split; [exact PK0|].
    intros NDr. split; cbn [p_cm p_data cm_dims].
    + apply B5. intros n Q. apply (NDr n), DONE, Q.
    + apply Pb.
    + exact Ns.
    + rewrite Sb. exact B4.
Qed.
