(** Lemmas behind CmProps.v: order. *)
From Verif Require Import Base BaseFacts CoordModel CoordSpec CoordProofs CoordProofs2 CoordProofs3
  CoordProofs4 CoordProofs5 NdModel NdSpec NdProofs NdProofs2 FrameModel FrameProofs5 ChunkModel CmModel CmSpec
  CmProofs CmProofs2 CmProofs3 CmProofs4 CmProofs5 CmProofs6.
From Coq Require Import Strings.String ZifyBool Sorting.Permutation Sorting.Sorted.
Ltac Zify.zify_post_hook ::= Z.div_mod_to_equations.
Local Open Scope Z_scope.
Local Open Scope list_scope.

Lemma order_okc argsort c rel smp l c' ix : wf_coord c -> c_ord argsort c rel smp l = Ok (c', ix) -> okc c'.
Proof.
  intros W E.
  assert (OS : order_samples c l = Ok (c', ix) -> okc c').
  { unfold order_samples. cbv zeta. destruct (c_getitem c _) as [x|] eqn:G; [|discriminate]. cbn [bind].
    intros [= <- _]. eapply getitem_okc; eauto. }
  assert (OV : forall l', order_values argsort c l' = Ok (c', ix) -> okc c').
  { intros l'. unfold order_values. destruct c; try discriminate;
      (destruct (order_index _ _ _); [|discriminate]);
      (destruct (c_getitem _ _) as [x|] eqn:G; [|discriminate]); cbn [bind];
      intros [= <- _]; eapply getitem_okc; eauto. }
  destruct c; cbn [c_ord] in E; try (destruct smp; [auto|destruct (rel_values _ rel l); [|discriminate]; eauto]).
  destruct (rel || negb smp); [discriminate|auto].
Qed.

Lemma has_extremes c : wf_coord c -> concrete c ->
  exists mn mx, is_least mn (c_ints c) /\ is_greatest mx (c_ints c).
Proof.
  intros W C. destruct c as [r|k v|k v|n]; [| | |destruct C]; cbn [c_ints].
  - exists (r_min r), (r_max r). split; [apply r_min_least|apply r_max_greatest]; exact W.
  - destruct W as [N _]. destruct v as [|x t]; [congruence|].
    eexists _, _. split; [apply list_min_least|apply list_max_greatest]; reflexivity.
  - destruct v as [|x t]; [destruct (W eq_refl)|].
    eexists _, _. split; [apply list_min_least|apply list_max_greatest]; reflexivity.
Qed.

Lemma c_ord_asks argsort c rel smp l : valid_argsort argsort -> wf_coord c -> can_order c smp l ->
  exists ps, asks_order c rel smp l ps /\
    exists c' ix, c_ord argsort c rel smp l = Ok (c', ix) /\
      indexer_positions (c_len c) ix = Some ps /\ okc c' /\ carried1 c c' ps.
Proof.
  intros VA W [C NP].
  assert (CC : forall c' ps vs, gather (c_ints c) ps = Some vs -> represents c' vs -> carried1 c c' ps).
  { intros c' ps vs G R. destruct c; try (exists vs; auto; fail). destruct C. }
  unfold asks_order. destruct smp.
  - specialize (NP eq_refl). destruct (order_samples_spec c l W C) as ([c' ix] & vs & E & G & R & P).
    set (ok := filter (fun i => (- c_len c <? i) && (i <? c_len c)) l) in *.
    assert (PS : forall i, In i ok -> 0 <= i).
    { intros i J. apply filter_In in J. destruct J as [J B]. specialize (NP i J). lia. }
    assert (Q : ok = filter (fun i => (0 <=? i) && (i <? c_len c)) l).
    { apply filter_ext_in. intros i J. specialize (NP i J). pose proof (c_len_nonneg c W). lia. }
    rewrite (map_ext_in (wrap_index (c_len c)) (fun i => i)) in G
      by (intros i J; specialize (PS i J); unfold wrap_index; dif; lia).
    rewrite map_id in G.
    exists ok. split; [split; [exact NP|exact Q]|]. exists c', ix.
    assert (c_ord argsort c rel true l = Ok (c', ix)) as Eo by (destruct c; try exact E; destruct C).
    split; [exact Eo|]. split; [exact (P PS)|]. split; [eapply order_okc; eauto|eauto].
  - destruct (has_extremes c W C) as (mn & mx & L & G).
    pose proof (rel_values_ok c rel l mn mx W C L G) as RV.
    destruct (order_values_full argsort c (map (fun y => if rel then (if 0 <=? y then mn + y else mx + y) else y) l) VA W C)
      as ([c' ix] & ps & E & B & P & Ga & R).
    exists ps. split; [exists mn, mx; auto|]. exists c', ix.
    assert (c_ord argsort c rel false l = Ok (c', ix)) as Eo.
    { destruct c; [| | |destruct C]; cbn [c_ord]; rewrite RV; cbn [bind]; exact E. }
    split; [exact Eo|]. split; [exact P|]. split; [eapply order_okc; eauto|eauto].
Qed.

Lemma pt_order_one {A} argsort (p : patch A) rel smp kw : valid_argsort argsort -> wf_patch p ->
  plain_names (p_cm p) -> separate (p_cm p) (map fst kw) ->
  (forall n l, In (n, l) kw -> exists c, assoc n (cm_coords (p_cm p)) = Some (M1 c) /\ can_order c smp l) ->
  exists p' pick own psf, pt_order argsort p rel smp kw = Ok p' /\ aligned p p' pick own /\
    picks_kw (p_cm p) psf (map fst kw) pick own /\
    (forall n l, In (n, l) kw -> exists c, assoc n (cm_coords (p_cm p)) = Some (M1 c) /\
       asks_order c rel smp l (psf n)).
Proof.
  intros VA WP PN S H. pose proof (wp_cm _ WP) as W.
  set (op := fun c a => match a with SelArr l => c_ord argsort c rel smp l | _ => Err Unmodelled end).
  set (kw' := map (fun e => (fst e, SelArr (snd e))) kw).
  set (psf := psf_of (p_cm p) op kw').
  assert (KN : map fst kw' = map fst kw) by (unfold kw'; rewrite map_map; reflexivity).
  assert (ND : NoDup (map fst kw')) by (rewrite KN; apply (separate_NoDup _ _ S)).
  assert (H' : forall n l, In (n, l) kw -> exists c, assoc n (cm_coords (p_cm p)) = Some (M1 c) /\
     asks_order c rel smp l (psf n) /\ answers op c (SelArr l) (psf n)).
  { intros n l J. destruct (H n l J) as (c & E & CO). exists c. split; [exact E|].
    destruct (c_ord_asks argsort c rel smp l VA (wf_vals _ W _ _ E) CO) as (ps & As & c' & ix & Eo & P & K & Ca).
    assert (psf n = ps) as ->.
    { unfold psf, psf_of. rewrite E. rewrite (in_assoc n (SelArr l) kw' ND).
      - cbn [op]. rewrite Eo, P. reflexivity.
      - unfold kw'. apply in_map_iff. exists (n, l). auto. }
    split; [exact As|]. exists c', ix. auto. }
  destruct (cm_select_one p rel smp op psf kw' WP PN) as (cm' & b & pick & own & E & AL & PK).
  { rewrite KN. exact S. }
  { intros e J. unfold kw' in J. apply in_map_iff in J. destruct J as ([n l] & <- & J). cbn [fst snd].
    destruct (H' n l J) as (c & Ec & _ & An). eauto. }
  exists (mkPatch cm' b), pick, own, psf. unfold pt_order. fold op. fold kw'. rewrite E. cbn [bind fst snd].
  rewrite KN in PK. split; [apply new_patch_ok; apply AL|]. split; [exact AL|]. split; [exact PK|].
  intros n l J. destruct (H' n l J) as (c & Ec & As & _). eauto.
Qed.
