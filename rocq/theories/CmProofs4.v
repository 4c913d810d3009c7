(** Lemmas behind CmProps.v: select. *)
From Verif Require Import Base BaseFacts CoordModel CoordSpec CoordProofs CoordProofs2 CoordProofs3
  CoordProofs4 CoordProofs5 NdModel NdSpec NdProofs NdProofs2 FrameModel FrameProofs5 ChunkModel CmModel CmSpec
  CmProofs CmProofs2 CmProofs3.
From Coq Require Import Strings.String ZifyBool Sorting.Permutation Sorting.Sorted.
Ltac Zify.zify_post_hook ::= Z.div_mod_to_equations.
Local Open Scope Z_scope.
Local Open Scope list_scope.

(** ** Selecting from one coordinate *)
Lemma getitem_okc c ix c' : wf_coord c -> c_getitem c ix = Ok c' -> okc c'.
Proof.
  intros W E. destruct c as [r|k v|k v|n].
  1: apply honest_okc, (getitem_honest (CRange r) ix); auto; apply wf_honest; exact W.
  3: apply honest_okc, (getitem_honest (CPart n) ix); auto; apply wf_honest; exact W.
  all: cbn [c_getitem] in E; destruct (np_index v ix); [injection E as <-; exact I|discriminate].
Qed.

Lemma getitem_carried c ix : wf_coord c ->
  match indexer_positions (c_len c) ix with
  | None => exists e, c_getitem c ix = Err e
  | Some ps => exists c', c_getitem c ix = Ok c' /\ okc c' /\ carried1 c c' ps
  end.
Proof.
  intros W. destruct (indexer_positions (c_len c) ix) as [ps|] eqn:E.
  - assert (Q : concrete c -> exists c', c_getitem c ix = Ok c' /\ okc c' /\
       exists vs, gather (c_ints c) ps = Some vs /\ represents c' vs).
    { intros C. pose proof (c_getitem_spec c ix W C) as H. rewrite E in H.
      destruct H as (c' & vs & E' & G & R). exists c'. split; [exact E'|].
      split; [apply (getitem_okc c ix c' W E')|]. eauto. }
    destruct c as [r|k v|k v|n]; try (apply Q; exact I).
    cbn [c_getitem c_len carried1] in *. rewrite E. eexists. split; [reflexivity|].
    split; [cbn; apply zlen_nonneg|reflexivity].
  - destruct c as [r|k v|k v|n];
      try (match goal with |- exists e, c_getitem ?c _ = _ => pose proof (c_getitem_spec c ix W I) as H end;
           rewrite E in H; exact H).
    cbn [c_getitem c_len] in *. rewrite E. eauto.
Qed.

Lemma positions_where_all {A} (p : A -> bool) l : (forall x, p x = true) -> positions_where p l = zrange (zlen l).
Proof.
  intros H. unfold positions_where. rewrite <- (filter_ext_in (fun _ => true)).
  - generalize (zrange (zlen l)). induction l0; cbn; congruence.
  - intros i J. apply in_zrange in J. destruct (proj2 (znth_range l i) J) as [x ->]. symmetry. apply H.
Qed.

Lemma select_carried c rel lo hi : wf_coord c -> concrete c ->
  exists c' ix keep, c_select c rel lo hi = Ok (c', ix) /\ okc c' /\
    indexer_positions (c_len c) ix = Some (positions_where keep (c_ints c)) /\
    carried1 c c' (positions_where keep (c_ints c)) /\
    (lo = None -> hi = None -> positions_where keep (c_ints c) = zrange (c_len c)) /\
    ((forall r, c = CRange r -> Z.abs (r_step r) < 20000000000) ->
     forall mn mx, is_least mn (c_ints c) -> is_greatest mx (c_ints c) ->
       positions_where keep (c_ints c) =
       positions_where (between (resolve rel mn mx lo) (resolve rel mn mx hi)) (c_ints c)).
Proof.
  intros W C.
  assert (UL : forall l a b, is_least a l -> is_least b l -> a = b).
  { intros l a b [A1 A2] [B1 B2]. specialize (A2 _ B1). specialize (B2 _ A1). lia. }
  assert (UG : forall l a b, is_greatest a l -> is_greatest b l -> a = b).
  { intros l a b [A1 A2] [B1 B2]. specialize (A2 _ B1). specialize (B2 _ A1). lia. }
  assert (NE : forall v : list Z, v <> [] -> exists mn mx, list_min v = Some mn /\ list_max v = Some mx).
  { intros [|x t] N; [congruence|]. cbn. eauto. }
  destruct c as [r|k v|k v|n]; [| | |destruct C].
  - cbn [c_select c_len c_ints]. destruct (r_select_core r rel lo hi _ _ W eq_refl eq_refl) as ([c' ix] & E & V & P).
    cbn [fst snd] in *. rewrite (zlen_r_values r W) in P.
    set (keep := between_tol (r_step r) (resolve rel (r_min r) (r_max r) lo) (resolve rel (r_min r) (r_max r) hi)) in *.
    exists c', ix, keep. split; [exact E|].
    split; [apply honest_okc, (select_honest (CRange r) rel lo hi (c', ix)); [apply wf_honest; exact W|exact E]|].
    split; [exact P|]. split.
    + cbn [carried1 c_ints]. exists (filter keep (r_values r)). split; [apply gather_positions_where|].
      apply represents_exact. exact V.
    + split.
      { intros -> ->. rewrite positions_where_all; [f_equal; apply (zlen_r_values r W)|]. reflexivity. }
      intros S mn mx L G. specialize (S r eq_refl).
      destruct (r_select_exact r rel lo hi W S) as ([c2 ix2] & E2 & _ & P2).
      rewrite E in E2. injection E2 as <- <-. cbn [snd] in P2. rewrite (zlen_r_values r W), P in P2.
      injection P2 as P2. rewrite P2.
      assert (is_least (r_min r) (r_values r) /\ is_greatest (r_max r) (r_values r)) as [M1' M2'].
      { split; [apply r_min_least|apply r_max_greatest]; exact W. }
      rewrite (UL _ _ _ L M1'), (UG _ _ _ G M2'). reflexivity.
  - destruct W as [N O]. destruct (NE v N) as (mn & mx & Mn & Mx).
    destruct (m_select_spec k v rel lo hi mn mx N O Mn Mx) as ([c' ix] & E & R & P). cbn [fst snd] in *.
    exists c', ix. eexists. split; [exact E|].
    split; [apply honest_okc, (select_honest (CMono k v) rel lo hi (c', ix)); [apply wf_honest; split; assumption|exact E]|].
    split; [exact P|]. split.
    + cbn [carried1 c_ints]. eexists. split; [apply gather_positions_where|exact R].
    + split; [intros -> ->; apply positions_where_all; reflexivity|].
      intros _ mn' mx' L G. cbn [c_ints] in *.
      rewrite (UL _ _ _ L (list_min_least _ _ Mn)), (UG _ _ _ G (list_max_greatest _ _ Mx)). reflexivity.
  - destruct (NE v W) as (mn & mx & Mn & Mx).
    destruct (a_select_spec k v rel lo hi mn mx Mn Mx) as ([c' ix] & E & R & P). cbn [fst snd] in *.
    exists c', ix. eexists. split; [exact E|].
    split; [apply honest_okc, (select_honest (CArr k v) rel lo hi (c', ix)); [apply wf_honest; exact W|exact E]|].
    split; [exact P|]. split.
    + cbn [carried1 c_ints]. eexists. split; [apply gather_positions_where|exact R].
    + split; [intros -> ->; apply positions_where_all; reflexivity|].
      intros _ mn' mx' L G. cbn [c_ints] in *.
      rewrite (UL _ _ _ L (list_min_least _ _ Mn)), (UG _ _ _ G (list_max_greatest _ _ Mx)). reflexivity.
Qed.

Lemma zsorted_positions_where {A} (p : A -> bool) l : zsorted (positions_where p l).
Proof. unfold positions_where. apply zsorted_filter, zsorted_zrange. Qed.

Lemma slice_step_up n s ps : 0 <= n -> slice_positions n s = Some ps ->
  match sl_step s with Some k => 0 < k | None => True end -> zsorted ps.
Proof.
  intros N E K. unfold slice_positions in E. destruct (slice_indices n s) as [[[i0 st] cnt]|] eqn:X; [|discriminate].
  injection E as <-. assert (0 < st).
  { unfold slice_indices in X. destruct (_ =? 0); [discriminate|]. injection X as _ <- _. destruct (sl_step s); lia. }
  apply (zsorted_map_mono (fun k => i0 + k * st)); [|apply zsorted_zrange]. intros x y L. nia.
Qed.
Lemma bools_sorted n m ps : indexer_positions n (IxBools m) = Some ps -> zsorted ps.
Proof. cbn [indexer_positions]. destruct (zlen m =? n); [|discriminate]. intros [= <-]. apply zsorted_true_positions. Qed.

(** Whatever select returns, its indexer and its coordinate agree. *)
Lemma c_sel_sound c rel smp arg c' ix : wf_coord c -> c_sel c rel smp arg = Ok (c', ix) ->
  exists ps, indexer_positions (c_len c) ix = Some ps /\ okc c' /\ carried1 c c' ps /\
    (backwards arg = false -> zsorted ps).
Proof.
  intros W.
  assert (GI : forall ix0, (do c2 <- c_getitem c ix0; Ok (c2, ix0)) = Ok (c', ix) ->
    exists ps, indexer_positions (c_len c) ix = Some ps /\ okc c' /\ carried1 c c' ps /\ ix = ix0).
  { intros ix0 E. pose proof (getitem_carried c ix0 W) as H.
    destruct (indexer_positions (c_len c) ix0) as [ps|] eqn:P.
    - destruct H as (c2 & E2 & K & Cc). rewrite E2 in E. cbn [bind] in E. injection E as <- <-. eauto.
    - destruct H as (e & H). rewrite H in E. discriminate. }
  assert (BI : forall m, (do c2 <- c_getitem c (IxBools m); Ok (c2, IxBools m)) = Ok (c', ix) ->
    exists ps, indexer_positions (c_len c) ix = Some ps /\ okc c' /\ carried1 c c' ps /\ zsorted ps).
  { intros m E. destruct (GI _ E) as (ps & P & K & Cc & ->). exists ps. repeat split; auto.
    apply (bools_sorted _ _ _ P). }
  assert (CS : forall r lo hi, c_select c (r && negb (match c with CPart _ => true | _ => false end)) lo hi = Ok (c', ix) ->
    exists ps, indexer_positions (c_len c) ix = Some ps /\ okc c' /\ carried1 c c' ps /\ zsorted ps).
  { intros r lo hi E.
    assert (Q : concrete c -> exists ps, indexer_positions (c_len c) ix = Some ps /\ okc c' /\ carried1 c c' ps /\ zsorted ps).
    { intros Cc. destruct (select_carried c (r && negb (match c with CPart _ => true | _ => false end)) lo hi W Cc)
        as (c2 & ix2 & keep & E2 & K & P & Ca & _ & _).
      rewrite E in E2. injection E2 as <- <-. eexists. split; [exact P|]. split; [exact K|]. split; [exact Ca|].
      apply zsorted_positions_where. }
    destruct c as [x|k v|k v|n]; try (apply Q; exact I).
    cbn [c_select] in E. unfold p_select in E. destruct lo, hi; try discriminate. injection E as <- <-.
    exists (zrange n). cbn in W. split; [apply full_slice_positions; exact W|]. split; [exact W|].
    split; [|apply zsorted_zrange]. cbn. rewrite zlen_zrange. f_equal. lia. }
  assert (SA : forall a, select_samples c a = Ok (c', ix) ->
    match a with SaSlice s => match sl_step s with Some k => k <? 0 | None => false end | _ => false end = false ->
    exists ps, indexer_positions (c_len c) ix = Some ps /\ okc c' /\ carried1 c c' ps /\ zsorted ps).
  { intros a E B. unfold select_samples in E. cbv zeta in E. destruct (GI _ E) as (ps & P & K & Cc & ->).
    exists ps. repeat split; auto. cbn [indexer_positions] in P.
    apply (slice_step_up (c_len c) _ _ (c_len_nonneg c W) P).
    destruct a as [i| |x y|s]; cbn [to_slice]; try exact I; try (destruct (i =? -1); exact I).
    destruct (sl_step s) as [k|] eqn:S; [|exact I]. unfold slice_positions, slice_indices in P.
    cbn [to_slice] in P. rewrite S in P. destruct (Z.eqb_spec k 0); [|lia]. subst k. cbn in P. discriminate. }
  assert (SB : forall s, select_samples c (SaSlice s) = Ok (c', ix) ->
    exists ps, indexer_positions (c_len c) ix = Some ps /\ okc c' /\ carried1 c c' ps).
  { intros s E. unfold select_samples in E. cbv zeta in E. destruct (GI _ E) as (ps & P & K & Cc & _). eauto. }
  assert (FIN : (exists ps, indexer_positions (c_len c) ix = Some ps /\ okc c' /\ carried1 c c' ps /\ zsorted ps) ->
    exists ps, indexer_positions (c_len c) ix = Some ps /\ okc c' /\ carried1 c c' ps /\
    (backwards arg = false -> zsorted ps)).
  { intros (ps & A1 & A2 & A3 & A4). exists ps. auto. }
  unfold c_sel. cbv zeta.
  set (part := match c with CPart _ => true | _ => false end) in *.
  destruct arg as [lo hi|s|i| |l|m].
  - destruct (smp && (negb part || (smp && negb rel))); intros E; apply FIN; [apply (SA _ E); reflexivity|apply (CS _ _ _ E)].
  - destruct (smp && (negb part || (smp && negb rel))); intros E.
    + cbn [backwards]. destruct (match sl_step s with Some k => k <? 0 | None => false end) eqn:B.
      * destruct (SB _ E) as (ps & A1 & A2 & A3). exists ps. repeat split; auto. discriminate.
      * destruct (SA _ E B) as (ps & A1 & A2 & A3 & A4). exists ps. auto.
    + destruct (sl_step s) eqn:Q; [discriminate|]. apply FIN, (CS _ _ _ E).
  - destruct (smp && (negb part || (smp && negb rel))); intros E; [|discriminate].
    apply FIN, (SA _ E). reflexivity.
  - destruct (smp && (negb part || (smp && negb rel))); intros E; apply FIN; [apply (SA _ E); reflexivity|apply (CS _ _ _ E)].
  - destruct (negb (negb part || (smp && negb rel))); [discriminate|]. intros E. apply FIN. destruct smp.
    + unfold select_sample_array in E. cbv zeta in E. apply (BI _ E).
    + destruct (rel_values c rel l) as [l'|]; [|discriminate]. cbn [bind] in E.
      unfold select_values in E. cbv zeta in E. apply (BI _ E).
  - destruct (negb (negb part || (smp && negb rel))); [discriminate|]. destruct smp; [discriminate|].
    intros E. apply FIN. unfold select_bools in E. apply (BI _ E).
Qed.

Lemma sorted_same ps qs : zsorted ps -> zsorted qs -> (forall i, In i ps <-> In i qs) -> ps = qs.
Proof. intros A B H. apply zsorted_ext; assumption. Qed.

Lemma int_slice n i : - n <= i < n ->
  slice_positions n (to_slice (SaInt i)) = Some [wrap_index n i].
Proof.
  intros B. cbn [to_slice].
  assert (Q : forall a b, n >= 1 -> a = wrap_index n i -> b = a + 1 ->
    (if a <? b then (b - a - 1) / 1 + 1 else 0) = 1).
  { intros a b _ _ ->. replace (a <? a + 1) with true by lia. replace (a + 1 - a - 1) with 0 by lia. reflexivity. }
  destruct (Z.eqb_spec i (-1)) as [->|Ni]; unfold slice_positions, slice_indices; cbn [sl_step sl_start sl_stop];
    change (1 =? 0) with false; change (1 <? 0) with false; cbv iota zeta.
  - assert (clip_index n 1 (-1) = wrap_index n (-1)) as -> by (unfold clip_index, wrap_index; cbv zeta; dif; lia).
    rewrite Q; [|lia|reflexivity|unfold wrap_index; dif; lia]. change (zrange 1) with [0]. cbn [map]. do 2 f_equal. lia.
  - assert (clip_index n 1 i = wrap_index n i) as -> by (unfold clip_index, wrap_index; cbv zeta; dif; lia).
    rewrite Q; [|lia|reflexivity|unfold clip_index, wrap_index; cbv zeta; dif; lia].
    change (zrange 1) with [0]. cbn [map]. do 2 f_equal. lia.
Qed.

Lemma c_min_least c m : wf_coord c -> concrete c -> is_least m (c_ints c) -> c_min c = Some m.
Proof.
  intros W C L. destruct c as [r|k v|k v|n]; [| | |destruct C]; cbn [c_min c_ints] in *.
  - f_equal. apply (least_unique _ _ _ (r_min_least r W) L).
  - destruct (list_min v) eqn:E; [f_equal; apply (least_unique _ _ _ (list_min_least _ _ E) L)|].
    destruct v; [destruct W; congruence|discriminate].
  - destruct (list_min v) eqn:E; [f_equal; apply (least_unique _ _ _ (list_min_least _ _ E) L)|].
    destruct v; [destruct (W eq_refl)|discriminate].
Qed.
Lemma greatest_unique' a b l : is_greatest a l -> is_greatest b l -> a = b.
Proof. intros [A1 A2] [B1 B2]. specialize (A2 _ B1). specialize (B2 _ A1). lia. Qed.
Lemma c_max_greatest c m : wf_coord c -> concrete c -> is_greatest m (c_ints c) -> c_max c = Some m.
Proof.
  intros W C L. destruct c as [r|k v|k v|n]; [| | |destruct C]; cbn [c_max c_ints] in *.
  - f_equal. apply (greatest_unique' _ _ _ (r_max_greatest r W) L).
  - destruct (list_max v) eqn:E; [f_equal; apply (greatest_unique' _ _ _ (list_max_greatest _ _ E) L)|].
    destruct v; [destruct W; congruence|discriminate].
  - destruct (list_max v) eqn:E; [f_equal; apply (greatest_unique' _ _ _ (list_max_greatest _ _ E) L)|].
    destruct v; [destruct (W eq_refl)|discriminate].
Qed.

Lemma rel_values_ok c rel l mn mx : wf_coord c -> concrete c ->
  is_least mn (c_ints c) -> is_greatest mx (c_ints c) ->
  rel_values c rel l = Ok (map (fun y => if rel then (if 0 <=? y then mn + y else mx + y) else y) l).
Proof.
  intros W C L G. unfold rel_values. destruct rel; [|rewrite map_id; reflexivity].
  apply map_result_map. intros y _. unfold relative_value.
  rewrite (c_min_least c mn W C L), (c_max_greatest c mx W C G). destruct (0 <=? y); reflexivity.
Qed.

Lemma c_sel_asks c rel smp arg ps : wf_coord c -> asks c rel smp arg ps ->
  exists c' ix, c_sel c rel smp arg = Ok (c', ix) /\ indexer_positions (c_len c) ix = Some ps /\
    backwards arg = false.
Proof.
  intros W A. pose proof (c_len_nonneg c W) as NN.
  assert (GI : forall ix0 qs, indexer_positions (c_len c) ix0 = Some qs ->
    exists c', (do c2 <- c_getitem c ix0; Ok (c2, ix0)) = Ok (c', ix0)).
  { intros ix0 qs P. pose proof (getitem_carried c ix0 W) as H. rewrite P in H.
    destruct H as (c2 & -> & _). cbn. eauto. }
  assert (SS : forall a qs, slice_positions (c_len c) (to_slice a) = Some qs ->
    exists c' ix, select_samples c a = Ok (c', ix) /\ indexer_positions (c_len c) ix = Some qs).
  { intros a qs P. unfold select_samples. cbv zeta. destruct (GI (IxSlice (to_slice a)) qs P) as (c' & ->).
    eexists _, _. split; [reflexivity|exact P]. }
  set (part := match c with CPart _ => true | _ => false end).
  assert (AV : forall lo hi qs, asks_values c rel lo hi qs ->
    exists c' ix, c_select c (rel && negb part) lo hi = Ok (c', ix) /\ indexer_positions (c_len c) ix = Some qs).
  { intros lo hi qs AV.
    assert (Q : concrete c -> asks_values c rel lo hi qs ->
      exists c' ix, c_select c (rel && negb part) lo hi = Ok (c', ix) /\ indexer_positions (c_len c) ix = Some qs).
    { intros Cc Av. assert (part = false) as -> by (subst part; destruct c; auto; destruct Cc).
      cbn [negb]. rewrite andb_true_r.
      destruct (select_carried c rel lo hi W Cc) as (c' & ix & keep & E & _ & P & _ & _ & X).
      exists c', ix. split; [exact E|]. rewrite P. f_equal.
      assert (H : (forall r, c = CRange r -> Z.abs (r_step r) < 20000000000) /\
        exists mn mx, is_least mn (c_ints c) /\ is_greatest mx (c_ints c) /\
        qs = positions_where (between (resolve rel mn mx lo) (resolve rel mn mx hi)) (c_ints c)).
      { destruct c; try exact Av. destruct Cc. }
      destruct H as (B & mn & mx & L & G & ->). apply X; assumption. }
    destruct c as [r|k v|k v|n]; try (apply Q; [exact I|exact AV]).
    destruct AV as (-> & -> & ->). cbn. eexists _, _. split; [reflexivity|]. apply full_slice_positions. exact W. }
  assert (CP : concrete c -> part = false) by (subst part; destruct c; auto; intros []).
  unfold c_sel. cbv zeta. fold part. unfold asks in A.
  destruct arg as [lo hi|s|i| |l|m]; cbn [backwards].
  - destruct smp; cbn [andb] in *.
    + destruct rel; cbn [negb] in *; [destruct A; discriminate|]. rewrite orb_true_r.
      destruct (SS (SaPair lo hi) ps A) as (c' & ix & E & P). exists c', ix. rewrite E. auto.
    + destruct A as [_ A]. destruct (AV _ _ _ A) as (c' & ix & E & P). exists c', ix. rewrite E. auto.
  - destruct smp; cbn [andb] in *.
    + destruct rel; cbn [negb] in *; [destruct A; discriminate|]. rewrite orb_true_r.
      destruct A as [A K]. destruct (SS (SaSlice s) ps A) as (c' & ix & E & P). exists c', ix. rewrite E.
      split; [reflexivity|]. split; [exact P|]. destruct (sl_step s); [lia|reflexivity].
    + destruct A as (_ & K & A). rewrite K. destruct (AV _ _ _ A) as (c' & ix & E & P).
      exists c', ix. rewrite E. auto.
  - destruct A as (-> & -> & B & ->). cbn [andb negb]. rewrite orb_true_r.
    assert (P : slice_positions (c_len c) (to_slice (SaInt i)) = Some [wrap_index (c_len c) i]).
    { apply int_slice. exact B. }
    destruct (SS (SaInt i) _ P) as (c' & ix & E & P'). exists c', ix. rewrite E. auto.
  - destruct A as [A ->]. destruct smp; cbn [andb] in *.
    + subst rel. cbn [negb]. rewrite orb_true_r.
      destruct (SS SaAll (zrange (c_len c))) as (c' & ix & E & P).
      { cbn [to_slice]. apply (full_slice_positions _ NN). }
      exists c', ix. rewrite E. auto.
    + destruct c as [r|k v|k v|n].
      4:{ cbn. eexists _, _. split; [reflexivity|]. split; [apply full_slice_positions; exact W|reflexivity]. }
      all: match goal with |- exists _ _, c_select ?c ?r _ _ = _ /\ _ =>
             destruct (select_carried c r None None W I) as (c' & ix & keep & E & _ & P & _ & X & _) end;
           exists c', ix; rewrite E; (split; [reflexivity|]); (split; [|reflexivity]); rewrite P; f_equal.
      all: apply X; reflexivity.
  - destruct A as [Cc A]. rewrite (CP Cc). cbn [negb orb]. destruct smp.
    + destruct A as [S B]. destruct (select_sample_array_spec c l W Cc) as ([c' ix] & qs & vs & E & S' & B' & P & _).
      exists c', ix. split; [exact E|]. split; [|reflexivity]. cbn [snd] in P. rewrite P. f_equal.
      apply sorted_same; auto. intros i0. rewrite B, B'. reflexivity.
    + destruct A as (mn & mx & L & G & ->). rewrite (rel_values_ok c rel l mn mx W Cc L G). cbn [bind].
      match goal with |- context [positions_where ?keep _] =>
        destruct (select_values_spec c (map (fun y => if rel then (if 0 <=? y then mn + y else mx + y) else y) l) keep W Cc)
          as ([c' ix] & E & _ & P) end.
      { intros x. rewrite existsb_exists, in_map_iff. cbn [resolve].
        split; intros (y & H1 & H2); exists y; (split; [lia|assumption]) || (split; [assumption|lia]). }
      exists c', ix. split; [exact E|]. split; [|reflexivity]. cbn [snd] in P.
      rewrite (wf_len c W Cc) in P. exact P.
  - destruct A as (Cc & -> & L & S & B). rewrite (CP Cc). cbn [negb orb].
    pose proof (select_bools_spec c m W Cc) as H. rewrite (proj2 (Z.eqb_eq _ _) L) in H.
    destruct H as ([c' ix] & qs & vs & E & S' & B' & P & _). exists c', ix. split; [exact E|]. split; [|reflexivity].
    cbn [snd] in P. rewrite P. f_equal. apply sorted_same; auto. intros i0. rewrite B, B'. reflexivity.
Qed.
