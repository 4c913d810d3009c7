(** Lemmas behind NaProps.v: restricting one dimension to chosen positions. *)
From Verif Require Import Base BaseFacts CoordModel CoordSpec CoordProofs CoordProofs2 CoordProofs3
  CoordProofs4 CoordProofs5 NdModel NdSpec NdProofs NdProofs2 NdProofs3 FrameModel FrameProofs5 ChunkModel CmModel CmSpec
  CmProofs CmProofs2 CmProofs3 CmProofs4 CmProofs5 CmProofs8 CmProofs10 CmProofs12 CmProofs13 BinOpModel TaperProofs3 NaModel NaSpec.
From Coq Require Import Strings.String ZifyBool Sorting.Sorted.
Ltac Zify.zify_post_hook ::= Z.div_mod_to_equations.
Local Open Scope Z_scope.
Local Open Scope list_scope.

Lemma restrict_ok {A} (p : patch A) dim c ix ps c' : wf_patch p -> plain_names (p_cm p) ->
  In dim (cm_dims (p_cm p)) -> assoc dim (cm_coords (p_cm p)) = Some (M1 c) ->
  indexer_positions (c_len c) ix = Some ps -> okc c' -> carried1 c c' ps ->
  (zlen ps = c_len c -> ps = zrange (c_len c)) ->
  exists cm' b, cm_update (p_cm p) [(dim, KSimple (VCoord (M1 c')))] = Ok cm' /\
    apply_indexers (p_data p) 0 (map (fun d => if String.eqb d dim then ix else simple_slice None None) (cm_dims (p_cm p))) = Some b /\
    new_patch cm' b = Ok (mkPatch cm' b) /\ restricted p (mkPatch cm' b) dim ps.
Proof.
  intros WP PN I E SP Kc Ca SAME0. destruct p as [cm a]. cbn [p_cm p_data] in *. pose proof (wp_cm _ WP) as W. cbn [p_cm] in W.
  set (pick := fun d => if String.eqb d dim then ps else pick0 cm d).
  pose proof (wf_vals _ W _ _ E) as Wc. cbn [wf_mcoord] in Wc. pose proof (c_len_nonneg c Wc) as NN.
  destruct (wf_dim_coord cm dim W I) as (c0 & E0 & _ & D). rewrite E in E0. injection E0 as <-.
  destruct (one_update cm dim c c' W PN I E Kc) as (cm' & EU & W' & D' & U0 & U1 & U2 & U3).
  assert (Lc : dim_len cm dim (c_len c)) by (exists c; auto).
  assert (Len : c_len c' = zlen ps).
  { assert (carried (M1 c) (M1 c') [ps]) as CC by (exists c', ps; auto).
    pose proof (carried_shape (M1 c) (M1 c') _ Kc CC) as SH. cbn in SH. congruence. }
  assert (SAME : c_len c = c_len c' -> ps = zrange (c_len c)) by (intros Q; apply SAME0; congruence).
  set (l := map (fun d => if String.eqb d dim then ix else simple_slice None None) (cm_dims cm)).
  destruct (apply_indexers_spec a l (map pick (cm_dims cm)) (wp_nd _ WP)) as (b & Eb & Pb).
  { pose proof (wp_shape _ WP) as F. cbn [p_cm p_data] in F. unfold l. clear - F SP W Lc.
    induction F as [|d n ds s (c1 & E1 & L1) F IH]; cbn [map combine]; constructor; [|exact IH].
    cbn [fst snd]. unfold pick. destruct (String.eqb_spec d dim) as [->|N].
    - destruct Lc as (c2 & E2 & L2). assert (n = c_len c) as -> by congruence. exact SP.
    - rewrite (pick0_len cm d n) by (exists c1; auto). apply full_positions. rewrite <- L1.
      apply c_len_nonneg, (wf_vals _ W _ _ E1). }
  { unfold l. rewrite map_length. apply (Forall2_length _ _ _ (wp_shape _ WP)). }
  { rewrite map_length. apply (Forall2_length _ _ _ (wp_shape _ WP)). }
  assert (COORD : forall n m, assoc n (cm_coords cm) = Some m ->
       match assoc n (cm_coords cm') with
       | Some m' => carried m m' (picks_of cm pick (own0 cm) n) /\ assoc n (cm_dmap cm') = assoc n (cm_dmap cm)
       | None => n <> dim /\ In dim (dims_of cm n) /\ ~ dim_len cm dim (zlen ps)
       end).
  { intros n m Em. destruct (string_dec n dim) as [->|N].
    - rewrite U0, U3 by auto. split; [|reflexivity]. rewrite E in Em. injection Em as <-.
      apply carried_recf; [exact Kc|]. unfold picks_of. rewrite D. cbn [map]. unfold pick. rewrite String.eqb_refl.
      exists c', ps. auto.
    - destruct (in_dec string_dec dim (dims_of cm n)) as [J|J].
      + destruct (Z.eq_dec (c_len c) (c_len c')) as [Q|Q].
        * assert (NR : ~ (In dim (dims_of cm n) /\ c_len c <> c_len c')) by tauto.
          rewrite (U2 n N NR), Em, U3 by auto. cbn [option_map]. split; [|reflexivity].
          apply carried_self; auto. intros d Jd. unfold pick. destruct (String.eqb_spec d dim) as [->|]; [|reflexivity].
          rewrite (SAME Q). symmetry. apply (pick0_len _ _ _ Lc).
        * rewrite (proj1 (U1 n N J Q)). split; [exact N|]. split; [exact J|]. intros (cx & X & Y). rewrite E in X. injection X as <-. congruence.
      + assert (NR : ~ (In dim (dims_of cm n) /\ c_len c <> c_len c')) by tauto.
        rewrite (U2 n N NR), Em, U3 by auto. cbn [option_map]. split; [|reflexivity].
        apply carried_self; auto. intros d Jd. unfold pick. destruct (String.eqb_spec d dim) as [->|]; [contradiction|reflexivity]. }
  assert (WP' : wf_patch (mkPatch cm' b)).
  { split; cbn [p_cm p_data].
    - exact W'.
    - apply Pb.
    - rewrite D'. apply (wp_some _ WP).
    - rewrite D', (proj1 (proj2 Pb)).
      assert (Q : forall d, In d (cm_dims cm) -> dim_len cm' d (zlen (pick d))).
      { intros d J. destruct (wf_dim_coord cm d W J) as (c1 & E1 & W1 & D1).
        specialize (COORD d _ E1). destruct (assoc d (cm_coords cm')) as [m'|] eqn:Em'.
        - destruct COORD as [C _]. unfold picks_of in C. rewrite D1 in C. cbn [map] in C.
          pose proof (carried_shape _ _ _ (wf_okm _ (wf_vals _ W' _ _ Em')) C) as SH.
          destruct C as (c2 & q & -> & _ & _). exists c2. split; [exact Em'|]. cbn in SH. congruence.
        - destruct COORD as (N & J' & _). unfold dims_of in J'. rewrite D1 in J'. destruct J' as [<-|[]]. congruence. }
      clear - Q. induction (cm_dims cm) as [|d ds IH]; cbn; constructor.
      + apply Q. left; reflexivity.
      + apply IH. intros; apply Q; right; assumption. }
  exists cm', b. split; [exact EU|]. split; [exact Eb|]. split; [apply new_patch_ok; apply WP'|].
  split; cbn [p_cm p_data]; [exact WP'|exact D'|exact Pb|exact COORD|].
  intros n En. assert (N : n <> dim) by congruence. rewrite (U2 n N); [rewrite En; reflexivity|].
  intros [J _]. unfold dims_of in J. destruct (assoc n (cm_dmap cm)) eqn:Dn; [|destruct J].
  destruct (con_coord _ (wf_con _ W) n l0 Dn) as (m & Em & _). congruence.
Qed.

(** ** Dropping *)
Lemma in_slab {A} (a : nd A) ax i x : wf_nd a ->
  In x (slab a ax i) <-> exists ix, nth_error ix ax = Some i /\ nd_get a ix = Some x.
Proof.
  intros W. pose proof W as [P _]. unfold slab. rewrite in_flat_map. split.
  - intros (ix & _ & J). exists ix. destruct (nth_error ix ax) as [j|]; [|destruct J]. destruct (nd_get a ix) as [y|]; [|destruct J].
    destruct (Z.eqb_spec j i); [|destruct J]. subst. destruct J as [->|[]]. auto.
  - intros (ix & X & Y). exists ix. rewrite X, Y, Z.eqb_refl. split; [|left; reflexivity].
    apply in_all_ix; [exact P|]. unfold nd_get in Y. destruct (ravel (nd_shape a) ix) eqn:R; [|discriminate].
    apply ravel_inb. eauto.
Qed.
Definition lost {A} (how : string) (f : A -> bool) (a : nd A) (ax : nat) (i : Z) : Prop :=
  if String.eqb how "any" then some_at f a ax i else every_at f a ax i.
Lemma to_drop_spec {A} how (f : A -> bool) (a : nd A) ax n i : wf_nd a -> 0 <= i < n ->
  exists b, znth (to_drop how f a ax n) i = Some b /\ (b = true <-> lost how f a ax i).
Proof.
  intros W I. unfold to_drop. rewrite znth_map, znth_zrange.
  destruct (Z.leb_spec 0 i) as [_|]; [|lia]. destruct (Z.ltb_spec i n) as [_|]; [|lia]. cbn [andb option_map].
  eexists. split; [reflexivity|]. unfold lost. destruct (String.eqb how "any").
  - rewrite existsb_exists. split.
    + intros (x & J & F). apply in_slab in J; [|exact W]. destruct J as (ix & X & Y). exists ix, x. auto.
    + intros (ix & x & X & Y & F). exists x. split; [apply in_slab; eauto|exact F].
  - rewrite forallb_forall. split.
    + intros H ix x X Y. apply H, in_slab; eauto.
    + intros H x J. apply in_slab in J; [|exact W]. destruct J as (ix & X & Y). apply (H ix x X Y).
Qed.

Lemma dropna_ok {A} (nonfinite isnull : A -> bool) (p : patch A) dim ax c how (inf : bool) : wf_patch p -> plain_names (p_cm p) ->
  nth_error (cm_dims (p_cm p)) ax = Some dim -> assoc dim (cm_coords (p_cm p)) = Some (M1 c) ->
  let f := if inf then nonfinite else isnull in
  exists p' ps, pt_dropna nonfinite isnull p dim how inf = Ok p' /\
    remaining (c_len c) (lost how f (p_data p) ax) ps /\ restricted p p' dim ps.
Proof.
  intros WP PN D E f. pose proof (wp_cm _ WP) as W. pose proof (wf_vals _ W _ _ E) as Wc. cbn [wf_mcoord] in Wc. pose proof (c_len_nonneg c Wc) as NN.
  pose proof (shape_axis p ax dim c WP D E) as SA.
  set (drop := to_drop how f (p_data p) ax (c_len c)).
  assert (LD : zlen drop = c_len c) by (unfold drop, to_drop; rewrite zlen_map, zlen_zrange; lia).
  assert (IP : indexer_positions (c_len c) (IxBools (map negb drop)) = Some (true_positions 0 (map negb drop))).
  { cbn [indexer_positions]. rewrite zlen_map, LD, Z.eqb_refl. reflexivity. }
  set (ps := true_positions 0 (map negb drop)) in *.
  assert (REM : remaining (c_len c) (lost how f (p_data p) ax) ps).
  { split; [apply zsorted_ascending, zsorted_true_positions|]. intros i. unfold ps. rewrite in_true_positions, Z.sub_0_r, znth_map. split.
    - intros X. destruct (znth drop i) as [b|] eqn:B; [|discriminate]. cbn in X. injection X as X.
      assert (I : 0 <= i < c_len c) by (pose proof (znth_some _ _ _ B); lia). split; [exact I|].
      destruct (to_drop_spec how f (p_data p) ax (c_len c) i (wp_nd _ WP) I) as (b' & B' & H). fold drop in B'. rewrite B in B'. injection B' as <-.
      intros L. apply H in L. subst b. discriminate.
    - intros [I L]. destruct (to_drop_spec how f (p_data p) ax (c_len c) i (wp_nd _ WP) I) as (b' & B' & H). fold drop in B'. rewrite B'.
      cbn [option_map]. destruct b'; [|reflexivity]. exfalso. apply L, H. reflexivity. }
  pose proof (getitem_carried c (IxBools (map negb drop)) Wc) as GC. rewrite IP in GC. destruct GC as (c' & G & Kc & Ca).
  destruct (restrict_ok p dim c (IxBools (map negb drop)) ps c' WP PN) as (cm' & b & EU & EB & EP & RS); auto.
  { apply (nth_error_In _ _ D). }
  { intros L. apply zsorted_full; [apply zsorted_true_positions| |exact L]. intros i J. apply REM, J. }
  exists (mkPatch cm' b), ps. split; [|auto].
  unfold pt_dropna, get_axis. rewrite (index_of_nth _ _ _ (wf_dims _ W) D). cbn [bind]. rewrite SA.
  change (nullish nonfinite isnull inf) with f. fold drop. rewrite EB, E, G. cbn [bind]. rewrite EU. cbn [bind]. exact EP.
Qed.

(** ** What is left *)
Lemma pick_ix_nth ax ps i : forall pss ix jx, pick_ix pss ix = Some jx -> nth_error pss ax = Some ps -> nth_error ix ax = Some i ->
  exists j, znth ps i = Some j /\ nth_error jx ax = Some j.
Proof.
  induction ax as [|ax IH]; intros [|q pss] [|k ix] jx; cbn; try discriminate; intros H;
    destruct (znth q k) as [z|] eqn:Z0; try discriminate; destruct (pick_ix pss ix) as [r|] eqn:R; try discriminate; injection H as <-.
  - intros [= <-] [= <-]. eauto.
  - intros P X. apply (IH _ _ _ R P X).
Qed.
Lemma pick_ix_put ps i : forall s ax jx j, inb s jx -> nth_error jx ax = Some j -> znth ps i = Some j ->
  pick_ix (put (full s) ax ps) (put jx ax i) = Some jx /\ nth_error (put jx ax i) ax = Some i /\
  inb (map zlen (put (full s) ax ps)) (put jx ax i).
Proof.
  induction s as [|n s IH]; intros ax jx j IB N Z0; inversion IB as [|? k ? jx' K IB']; subst.
  - destruct ax; discriminate.
  - destruct ax as [|ax]; cbn in N.
    + injection N as ->. cbn [full map put pick_ix nth_error]. fold (full s). rewrite Z0, (pick_ix_full _ _ IB').
      split; [reflexivity|]. split; [reflexivity|]. constructor; [apply znth_some in Z0; exact Z0|].
      rewrite map_zlen_full; [exact IB'|]. apply (inb_nonneg _ _ IB').
    + destruct (IH ax jx' j IB' N Z0) as (H1 & H2 & H3). cbn [full map put pick_ix nth_error]. fold (full s). rewrite znth_zrange.
      destruct (Z.leb_spec 0 k) as [_|]; [|lia]. destruct (Z.ltb_spec k n) as [_|]; [|lia]. cbn [andb]. rewrite H1.
      split; [reflexivity|]. split; [exact H2|]. constructor; [rewrite zlen_zrange; lia|exact H3].
Qed.
Lemma picks_put cm s dim ax ps : NoDup (cm_dims cm) -> Forall2 (dim_len cm) (cm_dims cm) s -> nth_error (cm_dims cm) ax = Some dim ->
  map (fun d => if String.eqb d dim then ps else pick0 cm d) (cm_dims cm) = put (full s) ax ps.
Proof.
  intros ND F. revert ax. induction F as [|d n ds s H F IH]; intros ax E; [destruct ax; discriminate|].
  inversion ND as [|? ? N1 N2]; subst. cbn [map full]. fold (full s). destruct ax as [|ax]; cbn in E |- *.
  - injection E as ->. rewrite String.eqb_refl. f_equal.
    clear -F N1. induction F as [|e m es t H F IH]; cbn; [reflexivity|]. fold (full t).
    destruct (String.eqb_spec e dim) as [->|N]; [exfalso; apply N1; left; reflexivity|].
    rewrite (pick0_len _ _ _ H). f_equal. apply IH. intros J. apply N1. right. exact J.
  - destruct (String.eqb_spec d dim) as [->|N]; [exfalso; apply N1; apply (nth_error_In _ _ E)|].
    rewrite (pick0_len _ _ _ H). f_equal. apply IH; auto.
Qed.
Lemma nth_put {T} (x : T) : forall l n y, nth_error l n = Some y -> nth_error (put l n x) n = Some x.
Proof. induction l as [|z l IH]; intros [|n] y; cbn; try discriminate; eauto. Qed.

Section Left.
Context {A : Type} (f : A -> bool) (p p' : patch A) (dim : string) (ax : nat) (ps : list Z) (c : coord).
Hypothesis WP : wf_patch p.
Hypothesis D : nth_error (cm_dims (p_cm p)) ax = Some dim.
Hypothesis E : assoc dim (cm_coords (p_cm p)) = Some (M1 c).
Hypothesis RS : restricted p p' dim ps.
Let pss := put (full (nd_shape (p_data p))) ax ps.

Lemma left_data : nd_picked (p_data p) (p_data p') pss.
Proof. unfold pss. rewrite <- (picks_put (p_cm p) _ dim ax ps (wf_dims _ (wp_cm _ WP)) (wp_shape _ WP) D). apply (rs_data _ _ _ _ RS). Qed.
Lemma left_axis : nth_error pss ax = Some ps.
Proof.
  unfold pss. pose proof (shape_axis p ax dim c WP D E) as SA. eapply nth_put. unfold full. rewrite nth_error_map, SA. reflexivity.
Qed.
Lemma get_inb {T} (a : nd T) ix x : nd_get a ix = Some x -> inb (nd_shape a) ix.
Proof. unfold nd_get. destruct (ravel (nd_shape a) ix) eqn:R; [|discriminate]. intros _. apply ravel_inb. eauto. Qed.

Lemma left_some i : some_at f (p_data p') ax i <-> exists j, znth ps i = Some j /\ some_at f (p_data p) ax j.
Proof.
  destruct left_data as (W & S & _ & G). split.
  - intros (ix & x & N & X & F). pose proof (get_inb _ _ _ X) as IB. rewrite S in IB. destruct (G ix IB) as (jx & y & P & Y & X').
    rewrite X in X'. injection X' as <-. destruct (pick_ix_nth ax ps i pss ix jx P left_axis N) as (j & Z0 & J). exists j. split; [exact Z0|]. exists jx, x. auto.
  - intros (j & Z0 & jx & x & N & X & F). pose proof (get_inb _ _ _ X) as IB.
    destruct (pick_ix_put ps i _ ax jx j IB N Z0) as (H1 & H2 & H3). fold pss in H1, H3. destruct (G _ H3) as (kx & y & P & Y & Q).
    rewrite H1 in P. injection P as <-. rewrite X in Y. injection Y as <-. exists (put jx ax i), x. auto.
Qed.
Lemma left_every i j : znth ps i = Some j -> every_at f (p_data p') ax i <-> every_at f (p_data p) ax j.
Proof.
  intros Z0. destruct left_data as (W & S & _ & G). split.
  - intros H jx x N X. pose proof (get_inb _ _ _ X) as IB.
    destruct (pick_ix_put ps i _ ax jx j IB N Z0) as (H1 & H2 & H3). fold pss in H1, H3. destruct (G _ H3) as (kx & y & P & Y & Q).
    rewrite H1 in P. injection P as <-. rewrite X in Y. injection Y as <-. apply (H _ _ H2 Q).
  - intros H ix x N X. pose proof (get_inb _ _ _ X) as IB. rewrite S in IB. destruct (G ix IB) as (jx & y & P & Y & X').
    rewrite X in X'. injection X' as <-. destruct (pick_ix_nth ax ps i pss ix jx P left_axis N) as (j' & Z1 & J). rewrite Z0 in Z1. injection Z1 as <-. apply (H jx x J Y).
Qed.
Lemma left_coord : exists c', assoc dim (cm_coords (p_cm p')) = Some (M1 c') /\ carried1 c c' ps /\ c_len c' = zlen ps.
Proof.
  pose proof (rs_coords _ _ _ _ RS dim _ E) as H. destruct (assoc dim (cm_coords (p_cm p'))) as [m'|] eqn:E'; [|tauto].
  destruct H as [Ca _]. destruct (wf_dim_coord _ dim (wp_cm _ WP) (nth_error_In _ _ D)) as (c0 & _ & _ & DM).
  unfold picks_of in Ca. rewrite DM in Ca. cbn [map] in Ca. rewrite String.eqb_refl in Ca.
  pose proof (carried_shape _ _ _ (wf_okm _ (wf_vals _ (wp_cm _ (rs_wf _ _ _ _ RS)) _ _ E')) Ca) as SH.
  destruct Ca as (c' & q & -> & Q & Ca). injection Q as <-. exists c'. split; [reflexivity|]. split; [exact Ca|]. cbn in SH. congruence.
Qed.
Lemma left_none how i : remaining (c_len c) (lost how f (p_data p) ax) ps -> 0 <= i < zlen ps -> ~ lost how f (p_data p') ax i.
Proof.
  intros [_ REM] I. destruct (proj2 (znth_range ps i) I) as [j Z0]. pose proof (proj1 (REM j) (znth_in _ _ _ Z0)) as [_ NL].
  unfold lost in *. destruct (String.eqb how "any").
  - intros L. apply left_some in L as (j' & Z1 & L). rewrite Z0 in Z1. injection Z1 as <-. exact (NL L).
  - intros L. apply (left_every i j Z0) in L. exact (NL L).
Qed.
End Left.

Lemma remaining_all n gone ps : 0 <= n -> remaining n gone ps -> (forall i, 0 <= i < n -> ~ gone i) -> ps = zrange n.
Proof.
  intros N [S H] G. apply zsorted_ext; [apply ascending_zsorted, S|apply zsorted_zrange|]. intros i. rewrite H, in_zrange. firstorder.
Qed.
Lemma restricted_all {A} (p p' : patch A) dim c : wf_patch p -> In dim (cm_dims (p_cm p)) -> assoc dim (cm_coords (p_cm p)) = Some (M1 c) ->
  restricted p p' dim (zrange (c_len c)) -> p_data p' = p_data p.
Proof.
  intros WP I E RS. symmetry. apply nd_picked_full_eq; [apply WP|].
  pose proof (rs_data _ _ _ _ RS) as H.
  replace (full (nd_shape (p_data p))) with (map (fun d => if String.eqb d dim then zrange (c_len c) else pick0 (p_cm p) d) (cm_dims (p_cm p))); [exact H|].
  assert (L : dim_len (p_cm p) dim (c_len c)) by (exists c; auto).
  pose proof (wp_shape _ WP) as F. clear - F L. induction F as [|d n ds s H F IH]; cbn; [reflexivity|]. fold (full s). f_equal; [|exact IH].
  destruct (String.eqb_spec d dim) as [->|]; [|apply pick0_len, H]. f_equal. destruct H as (c1 & X & <-), L as (c2 & Y & L). congruence.
Qed.
Lemma dropna_again {A} (nonfinite isnull : A -> bool) (p p1 : patch A) dim ax c how (inf : bool) : wf_patch p -> plain_names (p_cm p) ->
  nth_error (cm_dims (p_cm p)) ax = Some dim -> assoc dim (cm_coords (p_cm p)) = Some (M1 c) ->
  pt_dropna nonfinite isnull p dim how inf = Ok p1 ->
  exists p2, pt_dropna nonfinite isnull p1 dim how inf = Ok p2 /\ p_data p2 = p_data p1 /\ cm_dims (p_cm p2) = cm_dims (p_cm p1).
Proof.
  intros WP PN D E H. destruct (dropna_ok nonfinite isnull p dim ax c how inf WP PN D E) as (q & ps & H' & REM & RS).
  rewrite H in H'. injection H' as <-. destruct (left_coord p p1 dim ax ps c WP D E RS) as (c1 & E1 & _ & L1).
  assert (PN1 : plain_names (p_cm p1)).
  { intros n J. rewrite (rs_dims _ _ _ _ RS). apply PN. apply assoc_In. destruct (assoc n (cm_coords (p_cm p))) eqn:X; [eauto|].
    apply (rs_new _ _ _ _ RS) in X. apply assoc_In in J as [m J]. congruence. }
  pose proof (rs_wf _ _ _ _ RS) as WP1. pose proof D as D1. rewrite <- (rs_dims _ _ _ _ RS) in D1.
  destruct (dropna_ok nonfinite isnull p1 dim ax c1 how inf WP1 PN1 D1 E1) as (q & ps1 & Hq & REM1 & RS1).
  exists q. split; [exact Hq|]. split; [|apply (rs_dims _ _ _ _ RS1)].
  assert (ps1 = zrange (c_len c1)) as ->.
  { eapply remaining_all; [apply c_len_nonneg, (wf_vals _ (wp_cm _ WP1) _ _ E1)|exact REM1|]. intros i I. rewrite L1 in I. apply (left_none _ p p1 dim ax ps c WP D E RS how i REM I). }
  eapply restricted_all; eauto. apply (nth_error_In _ _ D1).
Qed.
