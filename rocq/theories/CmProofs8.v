(** Lemmas behind CmProps.v: sort. *)
From Verif Require Import Base BaseFacts CoordModel CoordSpec CoordProofs CoordProofs2 CoordProofs3
  CoordProofs4 CoordProofs5 NdModel NdSpec NdProofs NdProofs2 FrameModel FrameProofs5 ChunkModel CmModel CmSpec
  CmProofs CmProofs2 CmProofs3 CmProofs4 CmProofs5 CmProofs6.
From Coq Require Import Strings.String ZifyBool Sorting.Permutation Sorting.Sorted.
Ltac Zify.zify_post_hook ::= Z.div_mod_to_equations.
Local Open Scope Z_scope.
Local Open Scope list_scope.

Lemma ints_positions' n l : (forall i, In i l -> 0 <= i < n) -> indexer_positions n (IxInts l) = Some l.
Proof.
  intros H. cbn [indexer_positions]. assert (forallb (fun i => (- n <=? i) && (i <? n)) l = true) as ->.
  { apply forallb_forall. intros i J. specialize (H i J). lia. }
  f_equal. rewrite (map_ext_in _ (fun i => i)); [apply map_id|].
  intros i J. specialize (H i J). unfold wrap_index. dif; lia.
Qed.

Lemma reverse_positions n : 0 <= n ->
  indexer_positions n (IxSlice (mkSlice None None (Some (-1)))) = Some (rev (zrange n)).
Proof.
  intros N. cbn [indexer_positions]. unfold slice_positions, slice_indices. cbn [sl_step sl_start sl_stop].
  change (-1 =? 0) with false. change (-1 <? 0) with true. cbv iota zeta.
  assert (Q : map (fun k => n - 1 + k * -1) (zrange n) = rev (zrange n)).
  { assert (zrange n = progression 0 1 n) as ->.
    { unfold progression. rewrite (map_ext (fun i => 0 + i * 1) (fun i => i)) by (intros; lia). symmetry. apply map_id. }
    rewrite (rev_progression 0 1 n N). unfold progression. rewrite map_map. apply map_ext. intros. lia. }
  rewrite <- Q. f_equal. f_equal. f_equal. dif; lia.
Qed.

Lemma full_positions n : 0 <= n -> indexer_positions n (simple_slice None None) = Some (zrange n).
Proof. intros N. exact (full_slice_positions n N). Qed.

(** Positions a sort picks. *)
Lemma c_sort_picks argsort c reverse : valid_argsort argsort -> wf_coord c ->
  exists c' ix ps, c_sort argsort c reverse = Ok (c', ix) /\
    indexer_positions (c_len c) ix = Some ps /\ okc c' /\ carried1 c c' ps /\
    Permutation ps (zrange (c_len c)) /\
    (concrete c -> exists vs, gather (c_ints c) ps = Some vs /\ sorted_as reverse vs).
Proof.
  intros VA W. pose proof (c_len_nonneg c W) as NN.
  assert (Q : concrete c -> forall c' ix ps, c_sort argsort c reverse = Ok (c', ix) ->
    indexer_positions (c_len c) ix = Some ps -> Permutation ps (zrange (c_len c)) ->
    exists c' ix ps, c_sort argsort c reverse = Ok (c', ix) /\
    indexer_positions (c_len c) ix = Some ps /\ okc c' /\ carried1 c c' ps /\
    Permutation ps (zrange (c_len c)) /\
    (concrete c -> exists vs, gather (c_ints c) ps = Some vs /\ sorted_as reverse vs)).
  { intros C c' ix ps E P Pm. exists c', ix, ps. split; [exact E|]. split; [exact P|].
    destruct (c_sort_spec argsort c reverse VA W C) as (out & vs & E' & N & _ & S & R).
    rewrite E in E'. injection E' as <-. cbn [fst snd] in *.
    unfold np_index in N. rewrite (wf_len c W C), P in N.
    split; [apply honest_okc, (sort_honest argsort c reverse (c', ix) (wf_honest c W) E)|].
    split; [destruct c; try (exists vs; auto); destruct C|]. split; [exact Pm|]. eauto. }
  destruct c as [r|k v|k v|n].
  - destruct (r_sort r reverse) as [c' ix] eqn:E.
    assert (H : ix = simple_slice None None \/ ix = IxSlice (mkSlice None None (Some (-1)))).
    { unfold r_sort in E. destruct ((negb reverse && r_sorted r) || (reverse && r_reverse_sorted r)).
      - injection E as _ <-. auto.
      - destruct reverse; injection E as _ <-; auto. }
    destruct H as [ -> | -> ].
    + eapply (Q I c' _ (zrange (c_len (CRange r)))); [cbn [c_sort]; rewrite E; reflexivity|apply full_positions; exact NN|reflexivity].
    + eapply (Q I c' _ (rev (zrange (c_len (CRange r))))); [cbn [c_sort]; rewrite E; reflexivity|apply reverse_positions; exact NN|].
      symmetry. apply Permutation_rev.
  - destruct (c_sort_spec argsort (CMono k v) reverse VA W I) as ([c' ix] & _ & E & _).
    destruct (VA v) as [Pv _].
    assert (Pa : Permutation (if reverse then rev (argsort v) else argsort v) (zrange (zlen v))).
    { destruct reverse; [rewrite <- Permutation_rev|]; exact Pv. }
    assert (ix = IxInts (if reverse then rev (argsort v) else argsort v)) as ->.
    { cbn [c_sort] in E. destruct (gather v _); [|discriminate]. destruct (get_coord_data k l); [|discriminate].
      cbn [bind] in E. injection E as _ <-. reflexivity. }
    apply (Q I c' _ (if reverse then rev (argsort v) else argsort v) E); [|exact Pa].
    apply ints_positions'. intros i J. apply in_zrange. apply (Permutation_in _ Pa J).
  - destruct (c_sort_spec argsort (CArr k v) reverse VA W I) as ([c' ix] & _ & E & _).
    destruct (VA v) as [Pv _].
    assert (Pa : Permutation (if reverse then rev (argsort v) else argsort v) (zrange (zlen v))).
    { destruct reverse; [rewrite <- Permutation_rev|]; exact Pv. }
    assert (ix = IxInts (if reverse then rev (argsort v) else argsort v)) as ->.
    { cbn [c_sort] in E. destruct (gather v _); [|discriminate]. destruct (get_coord_data k l); [|discriminate].
      cbn [bind] in E. injection E as _ <-. reflexivity. }
    apply (Q I c' _ (if reverse then rev (argsort v) else argsort v) E); [|exact Pa].
    apply ints_positions'. intros i J. apply in_zrange. apply (Permutation_in _ Pa J).
  - cbn [c_sort]. exists (CPart n), (simple_slice None None), (zrange n).
    split; [reflexivity|]. split; [apply full_positions; exact NN|]. split; [exact W|].
    split; [cbn; rewrite zlen_zrange; f_equal; cbn in W; lia|]. split; [reflexivity|]. intros [].
Qed.

(** Indexing with a permutation keeps the class of an array coordinate. *)
Lemma mc_getitem_carried m m' P ax ix n ps : wf_mcoord m -> okm m' -> carried m m' P ->
  (forall c, m = M1 c -> m' = m) ->
  nth_error (m_shape m) ax = Some n -> 0 <= n -> nth_error P ax = Some (zrange n) ->
  indexer_positions n ix = Some ps -> zlen ps = n ->
  exists m2, mc_getitem m' ax ix = Ok m2 /\ okm m2 /\ carried m m2 (put P ax ps).
Proof.
  intros W K C U N Nn F E L.
  destruct (mc_index_carried m m' P ax ix n ps W K C U N Nn F E) as (m2 & E2 & K2 & C2).
  destruct m' as [c|k a|s].
  - destruct c as [r|k v|k v|x]; try (exists m2; auto; fail);
      (destruct m as [c0|? ?|?]; [|cbn in C; destruct (_ =? 0); [discriminate|destruct C as (? & ? & _); discriminate]|destruct C; discriminate]);
      specialize (U c0 eq_refl); injection U as <-; cbn [m_shape c_len] in N;
      (destruct ax as [|ax]; [|destruct ax; discriminate]); cbn in N; injection N as <-;
      destruct (np_index_ok _ _ _ E) as (w & Ew & G); cbn [mc_getitem]; rewrite Ew;
      eexists; (split; [reflexivity|]); (split; [exact Logic.I|]);
      destruct C as (c' & q & _ & -> & _); cbn [put carried]; eexists _, ps; (split; [reflexivity|]);
      (split; [reflexivity|]); cbn [carried1 c_ints]; exists w; (split; [exact G|]);
      apply represents_exact; reflexivity.
  - cbn [mc_getitem mc_index] in *. destruct (nd_index a ax ix) as [b|] eqn:Eb; [|discriminate].
    exists (MN k b). split; [reflexivity|].
    destruct m as [c0|k0 a0|?]; [destruct C as (? & ? & ? & _); discriminate| |destruct C; discriminate].
    pose proof (carried_shape _ _ _ K C) as SH. cbn [m_shape] in SH.
    injection E2 as E2. cbn [carried] in *. rewrite put_map in *.
    assert (P1 : put (map zlen P) ax (zlen ps) = map zlen P).
    { rewrite L. apply put_nth. rewrite nth_error_map, F. cbn. rewrite zlen_zrange. f_equal. lia. }
    rewrite P1 in *. destruct (size (map zlen P) =? 0) eqn:Z0; [discriminate|].
    destruct C2 as (b2 & E3 & Pb). subst m2. unfold get_coord_nd in E3.
    destruct (size (nd_shape b) =? 0); [discriminate|]. injection E3 as -> ->.
    split; [|exists b2; auto]. destruct K as [K1 Kl]. split; [apply Pb|].
    rewrite (proj1 (proj2 Pb)), map_length, put_length. rewrite SH, map_length in Kl. exact Kl.
  - exists m2. auto.
Qed.

Lemma apply_axes_app {A} (a : nd A) l1 l2 :
  apply_axes a (l1 ++ l2) = match apply_axes a l1 with Some b => apply_axes b l2 | None => None end.
Proof.
  revert a. induction l1 as [|[ax ix] l1 IH]; intros a; cbn; [reflexivity|].
  destruct (nd_index a ax ix); [apply IH|reflexivity].
Qed.

(** One more axis of the data. *)
Lemma axis_step {A} cm (a b : nd A) pick d k ax ix ps : NoDup (cm_dims cm) ->
  nd_picked a b (map pick (cm_dims cm)) -> index_of d (cm_dims cm) = Some ax ->
  0 <= k -> pick d = zrange k -> indexer_positions k ix = Some ps ->
  exists b2, nd_index b ax ix = Some b2 /\ nd_picked a b2 (map (upd pick d ps) (cm_dims cm)).
Proof.
  intros ND P X K Pd E. apply index_of_spec in X. destruct X as [X _].
  assert (F : nth_error (map pick (cm_dims cm)) ax = Some (zrange k)) by (rewrite nth_error_map, X; cbn; congruence).
  assert (B : forall p, In p ps -> 0 <= p < k) by (apply (indexer_positions_in_range _ _ _ K E)).
  assert (Sb : nth_error (nd_shape b) ax = Some k).
  { rewrite (proj1 (proj2 P)), nth_error_map, F. cbn. rewrite zlen_zrange. f_equal. lia. }
  destruct (nd_index_picked b ax ix k ps (proj1 P) Sb E B) as (b2 & E2 & P2).
  exists b2. split; [exact E2|]. pose proof (nd_picked_compose _ _ _ _ _ P P2) as P3.
  rewrite (proj1 (proj2 P)) in P3.
  rewrite (compose_put _ _ ps (zrange k) ps F (gather_zrange_id _ _ B)) in P3.
  rewrite (map_upd_put pick d ps (cm_dims cm) ax ND X). exact P3.
Qed.

Definition classed (cm : cman) (done : list string) (new : list (string * mcoord)) : Prop :=
  forall n k v, assoc n new = Some (M1 (CMono k v)) ->
    (ascending v \/ descending v) \/ dragged cm done n.

Lemma classed_step cm new pick own dd done n0 c c' d ix new' : wf_cm cm ->
  co_inv cm new pick own [] dd -> classed cm done new ->
  assoc n0 (cm_coords cm) = Some (M1 c) -> assoc n0 (cm_dmap cm) = Some [d] -> ~ In d dd -> honest c' ->
  related mc_getitem cm d n0 ix (assoc_set n0 (M1 c') new) = Ok new' ->
  classed cm (n0 :: done) new'.
Proof.
  intros W CI CL E D ND HC R n k v En.
  assert (KS : map fst (assoc_set n0 (M1 c') new) = map fst (cm_coords cm)).
  { rewrite keys_assoc_set, (ci_keys _ _ _ _ _ _ CI), (proj2 (mem_In' _ _)); [reflexivity|]. apply assoc_In. eauto. }
  set (newS := assoc_set n0 (M1 c') new) in *.
  assert (NDk : NoDup (map fst newS)) by (rewrite KS; apply (wf_ckeys _ W)).
  unfold related in R. match type of R with map_result ?F _ = _ => set (F0 := F) in * end.
  assert (SH : forall e y, F0 e = Ok y -> fst y = fst e).
  { intros [x m] y. unfold F0. cbn [fst snd]. destruct (String.eqb x n0); [intros [= <-]; reflexivity|].
    destruct (assoc x (cm_dmap cm)); [|discriminate]. destruct (index_of d l); [|intros [= <-]; reflexivity].
    destruct (mc_getitem m n1 ix); [|discriminate]. cbn. intros [= <-]. reflexivity. }
  destruct (map_result_entries F0 newS) as (l' & El & Kl & Al).
  { intros e J. apply map_result_Forall2 in R. clear - R J SH.
    induction R as [|x y l l' H R IH]; [destruct J|]. destruct J as [->|J]; [|auto].
    exists (snd y). rewrite H. rewrite <- (SH _ _ H). destruct y; reflexivity. }
  rewrite R in El. injection El as <-. specialize (Al n NDk).
  destruct (assoc n newS) as [m|] eqn:Em; [|congruence]. destruct Al as (m2 & Fm & A2).
  rewrite En in A2. injection A2 as <-. unfold newS in Em. rewrite assoc_assoc_set in Em.
  unfold F0 in Fm. cbn [fst snd] in Fm. destruct (String.eqb_spec n n0) as [->|N].
  - injection Em as <-. injection Fm as ->. left. exact HC.
  - assert (KEEP : dragged cm done n -> dragged cm (n0 :: done) n).
    { intros (n' & k1 & v1 & d1 & H1 & H2 & H3 & H4). exists n', k1, v1, d1.
      split; [exact H1|]. split; [exact H2|]. split; [right; exact H3|exact H4]. }
    destruct (assoc n (cm_dmap cm)) as [ds|] eqn:Dn; [|discriminate].
    destruct (index_of d ds) as [ax|] eqn:X.
    2:{ injection Fm as ->. destruct (CL n k v Em) as [H|H]; [left; exact H|right; auto]. }
    destruct (mc_getitem m ax ix) as [m1|] eqn:G; [|discriminate]. injection Fm as ->.
    (* which coordinate can become a monotone array *)
    destruct m as [c1|? ?|?]; [|cbn in G; destruct (nd_index _ _ _); discriminate
                               |cbn in G; destruct (nth_error _ _); [destruct (indexer_positions _ _)|]; discriminate].
    assert (In n (map fst (cm_coords cm))) as J by (rewrite <- (ci_keys _ _ _ _ _ _ CI); apply assoc_In; eauto).
    apply assoc_In in J. destruct J as [m0 E0].
    destruct (ci_coord _ _ _ _ _ _ CI n m0 E0) as (m' & A1 & A2 & A3 & A4). rewrite Em in A1. injection A1 as <-.
    assert (exists c0, m0 = M1 c0) as [c0 ->].
    { destruct m0 as [c0|? ?|?]; [eauto| |destruct A3; discriminate]. cbn in A3.
      destruct (_ =? 0); [discriminate|destruct A3 as (? & ? & _); discriminate]. }
    destruct (wf_1d cm n c0 W E0) as (ds' & D' & Hd). rewrite Dn in D'. injection D' as <-.
    destruct Hd as [->|(d0 & -> & _)]; [discriminate|].
    apply index_of_spec in X. destruct X as [X _]. destruct ax as [|ax]; [|destruct ax; discriminate].
    cbn in X. injection X as ->.
    assert (M1 c1 = M1 c0) as [= ->].
    { apply A4. intros ds2 H2. rewrite Dn in H2. injection H2 as <-. split; [discriminate|].
      intros d2 [<-|[]]. exact ND. }
    destruct c0 as [r|k0 v0|k0 v0|m0]; cbn [mc_getitem mc_index] in G.
    + left. destruct (np_index (c_ints (CRange r)) ix) as [w|]; [|discriminate].
      destruct (get_coord_represents (c_kind (CRange r)) w) as (c2 & E2 & _ & W2).
      rewrite E2 in G. injection G as ->. apply W2.
    + right. exists n0, k0, v0, d. split; [exact E0|]. split; [exact Dn|]. split; [left; reflexivity|].
      split; [intros ->; congruence|exact D].
    + destruct (np_index v0 ix); discriminate.
    + destruct (indexer_positions m0 ix); discriminate.
Qed.

Record srt_inv {A} (cm : cman) (a : nd A) (st : list (string * mcoord) * list (nat * indexer))
  (pick : string -> list Z) (done dd : list string) : Prop :=
  { si_co : co_inv cm (fst st) pick (own0 cm) [] dd;
    si_data : exists b, apply_axes a (snd st) = Some b /\ nd_picked a b (map pick (cm_dims cm));
    si_perm : forall d k, dim_len cm d k -> Permutation (pick d) (zrange k);
    si_class : classed cm done (fst st) }.

Lemma sort_step {A} argsort cm (a : nd A) reverse st pick done dd n c d : valid_argsort argsort -> wf_cm cm ->
  srt_inv cm a st pick done dd ->
  assoc n (cm_coords cm) = Some (M1 c) -> assoc n (cm_dmap cm) = Some [d] -> ~ In d dd ->
  exists st' ps, sort_one argsort cm reverse st n = Ok st' /\
    srt_inv cm a st' (upd pick d ps) (n :: done) (d :: dd) /\
    (concrete c -> exists vs, gather (c_ints c) ps = Some vs /\ sorted_as reverse vs).
Proof.
  intros VA W I E D ND. pose proof (wf_vals _ W _ _ E) as Wc. cbn [wf_mcoord] in Wc.
  pose proof (c_len_nonneg c Wc) as NN.
  destruct (wf_1d cm n c W E) as (ds & D' & Hd). rewrite D in D'. injection D' as <-.
  destruct Hd as [Hd|(d' & [= <-] & Id & Ld)]; [discriminate|].
  destruct (c_sort_picks argsort c reverse VA Wc) as (c' & ix & ps & Es & P & Kc & Ca & Pm & So).
  assert (Lp : zlen ps = c_len c).
  { unfold zlen. rewrite (Permutation_length Pm). fold (zlen (zrange (c_len c))). rewrite zlen_zrange. lia. }
  destruct (co_step cm mc_getitem (fst st) pick (own0 cm) [] dd n c c' d ix ps W (si_co _ _ _ _ _ _ I) E D Ld Kc Ca ND)
    as (new' & El & CI').
  { intros m m' Q ax Wm Km Cm Um Nm Qm. apply (mc_getitem_carried m m' Q ax ix (c_len c) ps); auto. }
  destruct (proj2 (index_of_In d (cm_dims cm)) Id) as [ax Ax].
  destruct (si_data _ _ _ _ _ _ I) as (b & Eb & Pb).
  destruct (axis_step cm a b pick d (c_len c) ax ix ps (wf_dims _ W) Pb Ax NN) as (b2 & Eb2 & Pb2).
  { apply (ci_full _ _ _ _ _ _ (si_co _ _ _ _ _ _ I)); assumption. }
  { exact P. }
  unfold sort_one. rewrite E, D, Es. cbn [bind fst snd]. unfold get_axis. rewrite Ax. cbn [bind].
  change (sort_related cm n d ix) with (related mc_getitem cm d n ix). rewrite El. cbn [bind].
  eexists _, ps. split; [reflexivity|]. split; [|exact So]. split; cbn [fst snd].
  - exact CI'.
  - exists b2. split; [|exact Pb2]. rewrite apply_axes_app, Eb. cbn. rewrite Eb2. reflexivity.
  - intros d1 k H1. unfold upd. destruct (String.eqb_spec d1 d) as [->|N1]; [|apply (si_perm _ _ _ _ _ _ I); exact H1].
    assert (k = c_len c) as -> by (destruct H1 as (? & ? & <-); destruct Ld as (? & ? & <-); congruence). exact Pm.
  - apply (classed_step cm (fst st) pick (own0 cm) dd done n c c' d ix new'); auto.
    + apply (si_co _ _ _ _ _ _ I).
    + apply (si_class _ _ _ _ _ _ I).
    + apply (sort_honest argsort c reverse (c', ix) (wf_honest c Wc) Es).
Qed.
