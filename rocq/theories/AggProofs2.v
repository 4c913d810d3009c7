(** Lemmas behind AggProps.v: aggregating patches. *)
From Verif Require Import Base BaseFacts CoordModel CoordSpec CoordProofs CoordProofs2 CoordProofs3 CoordProofs5 NdModel NdSpec NdProofs NdProofs2 FrameModel FrameProofs5 ChunkModel
  CmModel CmSpec CmProofs CmProofs2 CmProofs3 CmProofs10 CmProofs12 CmProofs13 CmProofs19 MergeModel MergeProofs7 ConcatSpec ConcatProofs2 AggModel AggSpec AggProofs.
From Coq Require Import Strings.String ZifyBool Lia.
Local Open Scope Z_scope.
Local Open Scope list_scope.

Lemma plain_sub cm cm' : plain_names cm -> cm_dims cm' = cm_dims cm ->
  (forall n, assoc n (cm_coords cm) = None -> assoc n (cm_coords cm') = None) -> plain_names cm'.
Proof.
  intros PN D H n I. rewrite D. apply PN. destruct (assoc n (cm_coords cm)) eqn:E.
  - apply assoc_in in E. apply (in_map fst) in E. exact E.
  - exfalso. apply H in E. apply assoc_None in E. exact (E I).
Qed.
Lemma filter_keeps {B} (q : B -> bool) l : (forall x, In x l -> q x = true) -> filter q l = l.
Proof. induction l as [|x l IH]; intros H; [reflexivity|]. cbn [filter]. rewrite (H x (or_introl eq_refl)), IH; [reflexivity|intros; apply H; right; assumption]. Qed.
Lemma put_entry s ax (n : Z) k : (ax <= List.length s)%nat -> put (with_entry s ax n) ax k = with_entry s ax k.
Proof.
  unfold with_entry. revert s. induction ax as [|ax IH]; intros s L; [reflexivity|].
  destruct s as [|m s]; cbn [List.length] in L; [lia|]. cbn [firstn skipn app put]. f_equal. apply IH. lia.
Qed.
Lemma with_entry_length s ax (n : Z) : (ax <= List.length s)%nat -> nth_error (with_entry s ax n) ax = Some n.
Proof.
  unfold with_entry. revert s. induction ax as [|ax IH]; intros s L; [reflexivity|].
  destruct s as [|m s]; cbn [List.length] in L; [lia|]. cbn [firstn skipn app nth_error]. apply IH. lia.
Qed.

Lemma one_kept {A} (f : list A -> A) h (p : patch A) d c c' : wf_patch p -> plain_names (p_cm p) -> In d (cm_dims (p_cm p)) ->
  assoc d (cm_coords (p_cm p)) = Some (M1 c) -> reduce_coord c h = Ok (Some c') -> okc c' -> c_len c' = 1 ->
  exists out, aggregate_one f h p d = Ok out /\ collapsed f d (fun _ c2 => recf (M1 c') = M1 c2) p out /\ plain_names (p_cm out).
Proof.
  intros W PN J Ec ER K L1. pose proof (wp_cm _ W) as Wc.
  destruct (ConcatProofs2.index_of_In d (cm_dims (p_cm p)) J) as (ax & IX & X).
  destruct (shape_at (cm_dims (p_cm p)) p ax d W eq_refl X) as (c0 & E0 & SH). rewrite Ec in E0. injection E0 as <-.
  destruct (fold_ok f ax (c_len c) (p_data p) (wp_nd _ W) SH) as (a & EF & Wa & Fa).
  destruct (fold_kept_ok f ax (p_data p) a Wa Fa) as [Wk Fk].
  set (b := mkNd (insert_at (nd_shape a) ax 1) (nd_flat a)) in *.
  destruct (one_update (p_cm p) d c c' Wc PN J Ec K) as (cm & EU & W' & D' & Nd & Gone & Kept & Dm).
  destruct (recf_M1 c' K) as (c2 & R1 & R2 & R3).
  assert (LN : length_of d p = c_len c) by (unfold length_of; rewrite Ec; reflexivity).
  assert (SB : Forall2 (dim_len cm) (cm_dims cm) (nd_shape b)).
  { destruct Fk as (s & n & S1 & LE & S2 & _). rewrite S2, D', <- (put_entry s ax n 1 LE), <- S1.
    assert (G : forall D s0 k, NoDup D -> Forall2 (dim_len (p_cm p)) D s0 -> nth_error D k = Some d ->
       (forall e, In e D -> In e (cm_dims (p_cm p))) -> Forall2 (dim_len cm) D (put s0 k 1)).
    { assert (Oth : forall e m, e <> d -> In e (cm_dims (p_cm p)) -> dim_len (p_cm p) e m -> dim_len cm e m).
      { intros e m Ne Ie (ce & Ee & Le). destruct (recf_M1 ce) as (ce2 & Q1 & Q2 & _); [apply wf_okc; exact (wf_vals _ Wc _ _ Ee)|].
        exists ce2. rewrite (Kept e Ne), Ee; [cbn [option_map]; rewrite Q1; split; [reflexivity|lia]|].
        intros [Q _]. destruct (wf_dim_coord _ e Wc Ie) as (? & _ & _ & De). unfold dims_of in Q. rewrite De in Q. destruct Q as [Q|[]]; congruence. }
      intros D s0 k ND F. revert k. induction F as [|e m D0 s0' H F IH]; intros [|k] N Sub; cbn in N; [discriminate|discriminate| |].
      - injection N as ->. cbn [put]. inversion ND; subst. constructor; [exists c2; rewrite Nd, R1; split; [reflexivity|lia]|].
        clear - F Oth Sub H2. assert (Sub' : forall e, In e D0 -> In e (cm_dims (p_cm p))) by (intros; apply Sub; right; assumption). clear Sub.
        induction F as [|e m D1 s1 H F IH]; constructor; [apply Oth; [intros ->; apply H2; left; reflexivity|apply Sub'; left; reflexivity|exact H]|].
        apply IH; [intros Q; apply H2; right; exact Q|intros; apply Sub'; right; assumption].
      - cbn [put]. inversion ND; subst. constructor; [apply Oth; [|apply Sub; left; reflexivity|exact H]|apply IH; [assumption|exact N|intros; apply Sub; right; assumption]].
        intros ->. apply H2. eapply nth_error_In. exact N. }
    apply G; [apply (wf_dims _ Wc)|apply (wp_shape _ W)|exact X|auto]. }
  assert (NN : cm_dims cm <> []) by (rewrite D'; apply (wp_some _ W)).
  exists (mkPatch cm b). split; [|split].
  - unfold aggregate_one, get_axis. rewrite IX. cbn [bind]. unfold dim_coord. rewrite Ec. cbn [bind]. rewrite ER. cbn [bind]. rewrite EF, EU. cbn [bind].
    unfold new_patch. fold b. rewrite (shape_of cm (nd_shape b) W' NN SB). cbn [bind]. rewrite (proj2 (CmProofs.zlist_eqb_eq _ _) eq_refl). reflexivity.
  - split; cbn [p_cm p_data].
    + split; cbn [p_cm p_data]; assumption.
    + exact D'.
    + exists ax. auto.
    + exists c, c2. rewrite Nd, R1. repeat split; auto. lia.
    + intros n m N Em Q. assert (NQ : ~ (In d (dims_of (p_cm p) n) /\ c_len c <> c_len c')) by (intros [Q1 Q2]; destruct Q; [contradiction|lia]).
      exists m, (recf m). cbn [p_cm]. rewrite (Kept n N NQ), (Dm n (or_intror NQ)), Em. split; [reflexivity|]. split; [reflexivity|].
      pose proof (wf_vals _ Wc _ _ Em) as Wm. split; [|reflexivity]. apply carried_recf; [apply wf_okm, Wm|apply carried_refl, Wm].
    + intros n N Q1 Q2. apply Gone; [exact N|exact Q1|lia].
    + intros n En. assert (N : n <> d) by congruence.
      assert (Dn : assoc n (cm_dmap (p_cm p)) = None).
      { destruct (assoc n (cm_dmap (p_cm p))) as [ds|] eqn:Ed; [|reflexivity]. destruct (con_coord _ (wf_con _ Wc) n ds Ed) as (m & Em & _). congruence. }
      assert (NQ : ~ (In d (dims_of (p_cm p) n) /\ c_len c <> c_len c')) by (intros [Q1 Q2]; unfold dims_of in Q1; rewrite Dn in Q1; destruct Q1).
      split; cbn [p_cm]; [rewrite (Kept n N NQ), En; reflexivity|]. rewrite (Dm n (or_intror NQ)). exact Dn.
  - cbn [p_cm]. apply (plain_sub (p_cm p)); [exact PN|exact D'|]. intros n En. assert (N : n <> d) by congruence.
    destruct (In_dec string_dec d (dims_of (p_cm p) n)) as [I|I].
    + destruct (Z.eq_dec (c_len c) (c_len c')) as [Q|Q]; [|apply (Gone n N I Q)].
      rewrite (Kept n N), En; [reflexivity|]. intros [_ Q']. contradiction.
    + rewrite (Kept n N), En; [reflexivity|]. intros [Q' _]. contradiction.
Qed.
Lemma collapsed_impl {A} (f : list A -> A) d (L L' : coord -> coord -> Prop) p out :
  (forall c c', assoc d (cm_coords (p_cm p)) = Some (M1 c) -> L c c' -> L' c c') -> collapsed f d L p out -> collapsed f d L' p out.
Proof.
  intros H [H1 H2 H3 (c & c' & E1 & E2 & Q & Q2) H5 H6 H7]. split; auto. exists c, c'. auto.
Qed.

Lemma one_empty {A} (f : list A -> A) (p : patch A) d : wf_patch p -> plain_names (p_cm p) -> In d (cm_dims (p_cm p)) ->
  exists out, aggregate_one f HEmpty p d = Ok out /\ collapsed f d lone_or_unknown p out /\ plain_names (p_cm out).
Proof.
  intros W PN J. destruct (wf_dim_coord (p_cm p) d (wp_cm _ W) J) as (c & Ec & Wc & _).
  destruct (Z.eq_dec (c_len c) 1) as [L|L].
  - destruct (one_kept f HEmpty p d c c W PN J Ec) as (out & E & C & P); [cbn [reduce_coord]; destruct (c_len c =? 1) eqn:Q; [reflexivity|lia]|apply wf_okc, Wc|exact L|].
    exists out. split; [exact E|]. split; [|exact P]. eapply collapsed_impl; [|exact C]. intros c1 c2 E1 R. rewrite Ec in E1. injection E1 as <-. left. split; [exact L|].
    rewrite <- R. replace (full [1]) with (full (m_shape (M1 c))) by (cbn [m_shape]; rewrite L; reflexivity). apply carried_recf; [apply wf_okm; exact Wc|apply carried_refl; exact Wc].
  - destruct (one_kept f HEmpty p d c (CPart 1) W PN J Ec) as (out & E & C & P); [cbn [reduce_coord]; destruct (c_len c =? 1) eqn:Q; [lia|reflexivity]|cbn; lia|reflexivity|].
    exists out. split; [exact E|]. split; [|exact P]. eapply collapsed_impl; [|exact C]. intros c1 c2 E1 R. rewrite Ec in E1. injection E1 as <-. right. split; [exact L|].
    cbn in R. congruence.
Qed.

Lemma one_func {A} (f : list A -> A) g (p : patch A) d c : wf_patch p -> plain_names (p_cm p) -> In d (cm_dims (p_cm p)) ->
  assoc d (cm_coords (p_cm p)) = Some (M1 c) -> concrete c -> c_kind c = KTime -> c_ints c <> [] ->
  exists out, aggregate_one f (HFunc g) p d = Ok out /\ collapsed f d (label_of g) p out /\ plain_names (p_cm out).
Proof.
  intros W PN J Ec Cc Kc NE. pose proof (wf_vals _ (wp_cm _ W) _ _ Ec) as Wc. cbn in Wc.
  assert (EG : get_coord_data KTime [g (c_ints c)] = Ok (CMono KTime [g (c_ints c)])) by reflexivity.
  destruct (one_kept f (HFunc g) p d c (CMono KTime [g (c_ints c)]) W PN J Ec) as (out & E & C & P); [|exact I|reflexivity|].
  - cbn [reduce_coord]. destruct (c_ints c) as [|v vs] eqn:V; [congruence|]. destruct c; [| | |destruct Cc]; rewrite Kc, V; reflexivity.
  - exists out. split; [exact E|]. split; [|exact P]. eapply collapsed_impl; [|exact C]. intros c1 c2 E1 R. rewrite Ec in E1. injection E1 as <-.
    destruct (recoord_1 (CMono KTime [g (c_ints c)]) I) as (c3 & R3 & RB). unfold recf in R. rewrite R3 in R. injection R as <-.
    destruct RB as (_ & _ & RB & _). apply RB. reflexivity.
Qed.

Lemma one_squeeze {A} (f : list A -> A) (p : patch A) d : wf_patch p -> In d (cm_dims (p_cm p)) -> (exists e, In e (cm_dims (p_cm p)) /\ e <> d) ->
  exists out, aggregate_one f HSqueeze p d = Ok out /\ removed f d p out.
Proof.
  intros W J (e0 & J0 & N0). pose proof (wp_cm _ W) as Wc.
  destruct (wf_dim_coord (p_cm p) d Wc J) as (c & Ec & Wcc & Dd).
  destruct (ConcatProofs2.index_of_In d (cm_dims (p_cm p)) J) as (ax & IX & X).
  destruct (shape_at (cm_dims (p_cm p)) p ax d W eq_refl X) as (c0 & E0 & SH). rewrite Ec in E0. injection E0 as <-.
  destruct (fold_ok f ax (c_len c) (p_data p) (wp_nd _ W) SH) as (a & EF & Wa & Fa).
  destruct (drop_coords_spec (p_cm p) [d] Wc) as (cm & ED & W' & D' & C1 & C2).
  assert (DB : forall n, droppedb (p_cm p) [d] n = true <-> In d (dims_of (p_cm p) n)).
  { intros n. rewrite droppedb_spec. unfold dropped, dims_of. split.
    - intros [[<-|[]]|(ds & x & E & I & [<-|[]])]; [rewrite Dd; left; reflexivity|rewrite E; exact I].
    - destruct (assoc n (cm_dmap (p_cm p))) as [ds|]; [|intros []]. intros I. right. exists ds, d. repeat split; auto. left; reflexivity. }
  assert (DR : forall D k, NoDup D -> nth_error D k = Some d -> filter (fun x => negb (mem x [d])) D = firstn k D ++ skipn (S k) D).
  { intros D. induction D as [|x D IH]; intros [|k] ND E; cbn in E; try discriminate; inversion ND; subst.
    - injection E as ->. cbn [filter firstn skipn app]. unfold mem at 1. cbn [existsb]. rewrite String.eqb_refl. cbn [orb negb].
      apply filter_keeps. intros y Y. apply Bool.negb_true_iff, mem_false. intros [<-|[]]. contradiction.
    - cbn [filter firstn skipn app]. assert (mem x [d] = false) as ->; [|cbn [negb]; f_equal; apply IH; assumption].
      apply mem_false. intros [<-|[]]. apply H1. eapply nth_error_In; exact E. }
  assert (D'' : cm_dims cm = firstn ax (cm_dims (p_cm p)) ++ skipn (S ax) (cm_dims (p_cm p))) by (rewrite D'; apply DR; [apply (wf_dims _ Wc)|exact X]).
  assert (SB : Forall2 (dim_len cm) (cm_dims cm) (nd_shape a)).
  { destruct Fa as (s & n & S1 & LE & S2 & _). rewrite S2, D''. pose proof (wp_shape _ W) as F. rewrite S1 in F.
    assert (Oth : forall e m, In e (cm_dims (p_cm p)) -> e <> d -> dim_len (p_cm p) e m -> dim_len cm e m).
    { intros e m Ie Ne (ce & Ee & Le). exists ce. rewrite C1. destruct (droppedb (p_cm p) [d] e) eqn:Q; [|auto]. apply DB in Q.
      destruct (wf_dim_coord _ e Wc Ie) as (? & _ & _ & De). unfold dims_of in Q. rewrite De in Q. destruct Q as [Q|[]]; congruence. }
    revert F Oth X. pose proof (wf_dims _ Wc) as ND. revert ND. generalize (cm_dims (p_cm p)) as D. clear - LE. unfold with_entry. revert s LE.
    induction ax as [|ax IH]; intros s LE D ND F Oth X.
    - cbn [firstn skipn app] in *. destruct D as [|x D]; [inversion F|]. cbn [nth_error] in X. injection X as ->. inversion F as [|? ? ? ? _ F2]; subst. apply NoDup_cons_iff in ND as [NI _].
      cbn [skipn]. clear - F2 Oth NI. eapply Forall2_impl_in; [|exact F2]. cbv beta. intros e m Ie H. apply Oth; [right; exact Ie|intros ->; exact (NI Ie)|exact H].
    - destruct s as [|m s]; cbn [List.length] in LE; [lia|]. cbn [firstn skipn app] in *. destruct D as [|x D]; [inversion F|]. cbn [nth_error] in X. inversion F; subst. apply NoDup_cons_iff in ND as [NI ND].
      cbn [firstn skipn app]. constructor; [apply Oth; [left; reflexivity|intros ->; apply NI; eapply nth_error_In; exact X|assumption]|].
      apply IH; [lia|assumption|assumption|intros; apply Oth; [right; assumption|assumption|assumption]|exact X]. }
  assert (NN : cm_dims cm <> []).
  { rewrite D'. intros Q. assert (I : In e0 (filter (fun x => negb (mem x [d])) (cm_dims (p_cm p)))); [|rewrite Q in I; destruct I].
    apply filter_In. split; [exact J0|]. apply Bool.negb_true_iff, mem_false. intros [Q0|[]]. congruence. }
  exists (mkPatch cm a). split.
  - unfold aggregate_one, get_axis. rewrite IX. cbn [bind]. unfold dim_coord. rewrite Ec. cbn [bind reduce_coord]. rewrite EF, ED. cbn [bind fst].
    unfold new_patch. rewrite (shape_of cm (nd_shape a) W' NN SB). cbn [bind]. rewrite (proj2 (CmProofs.zlist_eqb_eq _ _) eq_refl). reflexivity.
  - split; cbn [p_cm p_data].
    + split; cbn [p_cm p_data]; assumption.
    + exists ax. auto.
    + intros n m Em Q. destruct (droppedb (p_cm p) [d] n) eqn:B; [apply DB in B; contradiction|]. rewrite C1, C2, B. auto.
    + intros n Q. split; cbn [p_cm]; [rewrite C1|rewrite C2]; destruct (droppedb (p_cm p) [d] n) eqn:B; auto.
      * destruct Q as [Q|Q]; [apply DB in Q; congruence|exact Q].
      * destruct Q as [Q|Q]; [apply DB in Q; congruence|]. destruct (assoc n (cm_dmap (p_cm p))) as [ds|] eqn:Ed; [|reflexivity].
        destruct (con_coord _ (wf_con _ Wc) n ds Ed) as (m & Em & _). congruence.
Qed.
