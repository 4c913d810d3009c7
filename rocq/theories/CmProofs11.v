(** Lemmas behind CmProps.v: flip, decimate, roll. *)
From Verif Require Import Base BaseFacts CoordModel CoordSpec CoordProofs CoordProofs2 CoordProofs3
  CoordProofs4 CoordProofs5 NdModel NdSpec NdProofs NdProofs2 FrameModel FrameProofs5 ChunkModel CmModel CmSpec
  CmProofs CmProofs2 CmProofs3 CmProofs5 CmProofs8 CmProofs10.
From Coq Require Import Strings.String ZifyBool Sorting.Permutation Sorting.Sorted.
Ltac Zify.zify_post_hook ::= Z.div_mod_to_equations.
Local Open Scope Z_scope.
Local Open Scope list_scope.

(** ** Flip *)
Definition flipped (cm : cman) (done : list string) (n : string) (v : kval) : Prop :=
  exists ds m d ax m', assoc n (cm_dmap cm) = Some ds /\ assoc n (cm_coords cm) = Some m /\
    In d done /\ index_of d ds = Some ax /\ mc_getitem m ax flip_ix = Ok m' /\ v = KTuple ds (VCoord m').
Definition flip_inv (cm : cman) (done : list string) (o : list (string * kval)) : Prop :=
  NoDup (map fst o) /\
  forall n, match assoc n o with
            | Some v => flipped cm done n v
            | None => forall ds d, assoc n (cm_dmap cm) = Some ds -> In d done -> ~ In d ds
            end.

Lemma flip_mc m ax k : wf_mcoord m -> nth_error (m_shape m) ax = Some k -> 0 <= k ->
  exists m2, mc_getitem m ax flip_ix = Ok m2 /\ okm m2 /\
    carried m m2 (put (full (m_shape m)) ax (rev (zrange k))).
Proof.
  intros W N K. apply (mc_getitem_carried m m (full (m_shape m)) ax flip_ix k); auto.
  - apply wf_okm. exact W.
  - apply carried_refl. exact W.
  - unfold full. rewrite nth_error_map, N. reflexivity.
  - apply reverse_positions. exact K.
  - rewrite zlen_rev, zlen_zrange. lia.
Qed.

Lemma flip_assoc_fold cm name : wf_cm cm -> In name (cm_dims cm) ->
  forall l o, (forall n ds, In (n, ds) l -> assoc n (cm_dmap cm) = Some ds) -> NoDup (map fst o) ->
  exists o', fold_left (fun acc e => do o <- acc; flip_assoc cm name o e) l (Ok o) = Ok o' /\
    NoDup (map fst o') /\
    forall n, (assoc n o' = assoc n o /\
               (forall ds, In (n, ds) l -> n = name \/ ~ In name ds)) \/
              (n <> name /\ exists v, assoc n o' = Some v /\ flipped cm [name] n v).
Proof.
  intros W I. induction l as [|[n0 ds0] l IH]; intros o H ND.
  - exists o. cbn. split; [reflexivity|]. split; [exact ND|]. intros n. left. split; [reflexivity|intros ds []].
  - cbn [fold_left bind]. pose proof (H n0 ds0 (or_introl eq_refl)) as D0. unfold flip_assoc at 2. cbn [fst snd].
    assert (H' : forall n ds, In (n, ds) l -> assoc n (cm_dmap cm) = Some ds) by (intros; apply H; right; assumption).
    destruct (String.eqb_spec n0 name) as [->|N0].
    { destruct (IH o H' ND) as (o' & E & ND' & Q). exists o'. split; [exact E|]. split; [exact ND'|].
      intros n. destruct (Q n) as [[Q1 Q2]|Q1]; [left|right; exact Q1]. split; [exact Q1|].
      intros ds [[= <- <-]|J]; [left; reflexivity|apply Q2; exact J]. }
    destruct (index_of name ds0) as [ax|] eqn:X.
    + destruct (con_coord _ (wf_con _ W) n0 ds0 D0) as (m & Em & S & F). rewrite Em.
      pose proof X as X'. apply index_of_spec in X'. destruct X' as [X' _].
      destruct F as [->|F]; [destruct ax; discriminate|].
      assert (Nk : exists k, nth_error (m_shape m) ax = Some k /\ dim_len cm name k).
      { clear - F X'. revert ax X'. induction F as [|x k l s H F IH]; intros [|ax]; cbn; try discriminate.
        - intros [= ->]. eauto.
        - apply IH. }
      destruct Nk as (k & Nk & c & Ec & Lc).
      destruct (flip_mc m ax k (wf_vals _ W _ _ Em) Nk) as (m2 & E2 & _).
      { rewrite <- Lc. apply c_len_nonneg, (wf_vals _ W _ _ Ec). }
      rewrite E2. cbn [bind].
      destruct (IH (assoc_set n0 (KTuple ds0 (VCoord m2)) o) H' (NoDup_assoc_set _ _ _ ND)) as (o' & E & ND' & Q).
      exists o'. split; [exact E|]. split; [exact ND'|]. intros n.
      assert (FL : flipped cm [name] n0 (KTuple ds0 (VCoord m2))).
      { exists ds0, m, name, ax, m2. repeat split; auto. left; reflexivity. }
      destruct (Q n) as [[Q1 Q2]|Q1]; [|right; exact Q1]. rewrite assoc_assoc_set in Q1.
      destruct (String.eqb_spec n n0) as [->|Nn].
      * right. split; [exact N0|]. eauto.
      * left. split; [exact Q1|]. intros ds [[= <- <-]|J]; [congruence|apply Q2; exact J].
    + destruct (IH o H' ND) as (o' & E & ND' & Q). exists o'. split; [exact E|]. split; [exact ND'|].
      intros n. destruct (Q n) as [[Q1 Q2]|Q1]; [left|right; exact Q1]. split; [exact Q1|].
      intros ds [[= <- <-]|J]; [right; apply index_of_None; exact X|apply Q2; exact J].
Qed.

Lemma flip_one_step cm o done name : wf_cm cm -> In name (cm_dims cm) -> flip_inv cm done o ->
  exists o', flip_one cm o name = Ok o' /\ flip_inv cm (name :: done) o'.
Proof.
  intros W I [ND Iv]. destruct (wf_dim_coord cm name W I) as (c & E & Wc & D).
  unfold flip_one. rewrite E, D.
  destruct (flip_mc (M1 c) 0 (c_len c)) as (m2 & E2 & _); [exact Wc|reflexivity|apply c_len_nonneg; exact Wc|].
  rewrite E2. cbn [bind].
  destruct (flip_assoc_fold cm name W I (cm_dmap cm) (assoc_set name (KTuple [name] (VCoord m2)) o)) as (o' & Ef & ND' & Q).
  { intros n ds J. apply (in_assoc _ _ _ (wf_dkeys _ W) J). }
  { apply NoDup_assoc_set. exact ND. }
  exists o'. split; [exact Ef|]. split; [exact ND'|]. intros n.
  assert (MONO : forall dn, (forall x, In x dn -> In x (name :: done)) -> forall v, flipped cm dn n v -> flipped cm (name :: done) n v).
  { intros dn Sb v (ds & m & d & ax & m' & H1 & H2 & H3 & H4). exists ds, m, d, ax, m'. auto. }
  destruct (Q n) as [[Q1 Q2]|(_ & v & Q1 & Q2)].
  - rewrite Q1, assoc_assoc_set. destruct (String.eqb_spec n name) as [->|N].
    + exists [name], (M1 c), name, 0%nat, m2. repeat split; auto; [left; reflexivity|].
      cbn. rewrite String.eqb_refl. reflexivity.
    + specialize (Iv n). destruct (assoc n o) as [v|].
      * apply (MONO done); [intros x J; right; exact J|exact Iv].
      * intros ds d Dn [<-|J]; [|apply (Iv ds d Dn J)]. destruct (Q2 ds (assoc_in _ _ _ Dn)); [contradiction|assumption].
  - rewrite Q1. apply (MONO [name]); [intros x [<-|[]]; left; reflexivity|exact Q2].
Qed.

Lemma flip_fold cm dims : wf_cm cm -> (forall d, In d dims -> In d (cm_dims cm)) ->
  exists o, fold_left (fun acc n => do o <- acc; flip_one cm o n) dims (Ok []) = Ok o /\
    flip_inv cm (rev dims) o.
Proof.
  intros W S.
  assert (Q : forall l o done, (forall d, In d l -> In d (cm_dims cm)) -> flip_inv cm done o ->
    exists o', fold_left (fun acc n => do o <- acc; flip_one cm o n) l (Ok o) = Ok o' /\ flip_inv cm (rev l ++ done) o').
  { clear dims S. induction l as [|d l IH]; intros o done S Iv; [exists o; auto|].
    destruct (flip_one_step cm o done d W (S d (or_introl eq_refl)) Iv) as (o1 & E1 & I1).
    destruct (IH o1 (d :: done)) as (o' & E' & I'); [intros; apply S; right; assumption|exact I1|].
    exists o'. cbn [fold_left bind]. rewrite E1. split; [exact E'|]. cbn [rev]. rewrite <- app_assoc. exact I'. }
  destruct (Q dims [] [] S) as (o & E & I); [|exists o; rewrite app_nil_r in I; auto].
  split; [constructor|]. intros n. cbn. intros ds d _ [].
Qed.


Lemma cm_flip_ok cm dims : wf_cm cm -> plain_names cm ->
  (forall d, In d dims -> In d (cm_dims cm)) ->
  (forall n ds d1 d2, assoc n (cm_dmap cm) = Some ds -> In d1 dims -> In d2 dims -> In d1 ds -> In d2 ds -> d1 = d2) ->
  exists cm', cm_flip cm dims = Ok cm' /\ wf_cm cm' /\ cm_aligned cm cm' (flip_pick cm dims) (own0 cm).
Proof.
  intros W PN S ONE. destruct (flip_fold cm dims W S) as (o & E & ND & Iv).
  unfold cm_flip. rewrite E. cbn [bind].
  set (newf := fun n => match assoc n o with Some (KTuple _ (VCoord m)) => Some m | _ => None end).
  assert (NF : forall n m', newf n = Some m' -> exists ds m d ax k, assoc n (cm_dmap cm) = Some ds /\
     assoc n (cm_coords cm) = Some m /\ In d dims /\ nth_error ds ax = Some d /\ In d ds /\ dim_len cm d k /\ 0 <= k /\
     nth_error (m_shape m) ax = Some k /\ Forall2 (dim_len cm) ds (m_shape m) /\
     okm m' /\ carried m m' (put (full (m_shape m)) ax (rev (zrange k))) /\ mc_getitem m ax flip_ix = Ok m').
  { intros n m' Q. unfold newf in Q. specialize (Iv n). destruct (assoc n o) as [v|]; [|discriminate].
    destruct Iv as (ds & m & d & ax & m2 & D & Em & Jd & X & G & ->). injection Q as ->.
    apply index_of_spec in X. destruct X as [X _]. pose proof (nth_error_In _ _ X) as Jx.
    destruct (con_coord _ (wf_con _ W) n ds D) as (m1 & Em1 & Sn & F). rewrite Em in Em1. injection Em1 as <-.
    destruct F as [->|F]; [destruct Jx|].
    assert (Nk : exists k, nth_error (m_shape m) ax = Some k /\ dim_len cm d k).
    { clear - F X. revert ax X. induction F as [|x k l s H F IH]; intros [|ax]; cbn; try discriminate.
      - intros [= ->]. eauto.
      - apply IH. }
    destruct Nk as (k & Nk & Lk).
    assert (0 <= k) as Kn by (destruct Lk as (c & Ec & <-); apply c_len_nonneg, (wf_vals _ W _ _ Ec)).
    destruct (flip_mc m ax k (wf_vals _ W _ _ Em) Nk Kn) as (m3 & G3 & K3 & C3). rewrite G in G3. injection G3 as <-.
    exists ds, m, d, ax, k. repeat split; auto. apply in_rev. exact Jd. }
  assert (SHP : forall n m' m, newf n = Some m' -> assoc n (cm_coords cm) = Some m -> m_shape m' = m_shape m).
  { intros n m' m Q Em. destruct (NF n m' Q) as (ds & m0 & d & ax & k & D & Em0 & Jd & X & Jx & Lk & Kn & Nk & F & K & C & _).
    rewrite Em in Em0. injection Em0 as <-. rewrite (carried_shape _ _ _ K C), put_map.
    assert (Pos : Forall (fun n => 0 <= n) (m_shape m)).
    { pose proof (wf_vals _ W _ _ Em) as Wm. destruct m as [c|kk b|s]; cbn in *; [constructor; [apply c_len_nonneg; exact Wm|constructor]|apply Wm|apply Wm]. }
    rewrite (map_zlen_full _ Pos), zlen_rev, zlen_zrange. apply put_nth. rewrite Nk. f_equal. lia. }
  destruct (cm_update_sub cm o newf) as (cm' & EU & W' & D' & U1 & U2 & U3); auto.
  - split; [exact ND|]. intros n. pose proof (NF n) as NFn. unfold newf in *. specialize (Iv n).
    destruct (assoc n o) as [v|]; [|reflexivity].
    destruct Iv as (ds & m & d & ax & m2 & Dn & Em & Jd & X & G & ->).
    destruct (NFn m2 eq_refl) as (? & ? & ? & ? & ? & ? & ? & ? & ? & ? & ? & ? & ? & ? & K & ?).
    exists m2, ds. auto.
  - intros d m I Q. destruct (NF d m Q) as (ds & m0 & d' & ax & k & D & Em0 & _ & X & Jx & _ & _ & _ & _ & K & C & _).
    destruct (wf_dim_coord cm d W I) as (c & Ec & _). rewrite Em0 in Ec. injection Ec as ->.
    destruct C as (c' & ps & -> & _). eauto.
  - intros n m ds Q D Nds. destruct (NF n m Q) as (ds0 & m0 & d' & ax & k & D0 & Em0 & _ & _ & _ & _ & _ & _ & F & K & C & _).
    rewrite D in D0. injection D0 as <-. rewrite (SHP n m m0 Q Em0).
    eapply Forall2_impl_in; [|exact F]. intros d k0 Jd (c & Ec & Lc). unfold latest.
    destruct (newf d) as [m1|] eqn:Nd; [|eauto].
    destruct (NF d m1 Nd) as (? & m2 & ? & ? & ? & ? & Em2 & ? & ? & ? & ? & ? & ? & ? & ? & C2 & ?).
    rewrite Ec in Em2. injection Em2 as <-. pose proof (SHP d m1 _ Nd Ec) as Sh.
    destruct C2 as (c' & ps & -> & _). exists c'. split; [reflexivity|]. cbn in Sh. congruence.
  - exists cm'. split; [exact EU|]. split; [exact W'|].
    assert (NR : forall n, ~ resized cm newf n).
    { intros n (ds & d & c & c' & D & J & Nd & Ec & Nq). pose proof (SHP d _ _ Nd Ec) as Sh. cbn in Sh. congruence. }
    split; [exact D'|]. split.
    { intros n. destruct (newf n) as [m|] eqn:Q; [apply (U1 n m Q)|apply (U3 n Q (NR n))]. }
    intros n. destruct (assoc n (cm_coords cm)) as [m|] eqn:Em.
    2:{ destruct (newf n) as [m|] eqn:Q.
        - destruct (NF n m Q) as (? & m2 & ? & ? & ? & ? & Em2 & ?). congruence.
        - destruct (U3 n Q (NR n)) as [-> _]. rewrite Em. exact Logic.I. }
    destruct (wf_lookup cm n m W Em) as (ds & D & Sn & Fd).
    pose proof (picks0 cm n m W Em) as P0.
    destruct (newf n) as [m'|] eqn:Q.
    + destruct (U1 n m' Q) as [-> _]. destruct (NF n m' Q) as (ds0 & m0 & d & ax & k & D0 & Em0 & Jd & X & Jx & Lk & Kn & Nk & F & K & C & _).
      rewrite Em in Em0. injection Em0 as <-. rewrite D in D0. injection D0 as <-.
      apply carried_recf; [exact K|]. unfold picks_of in *. rewrite D in *.
      destruct ds as [|d0 ds0]; [destruct Jx|]. set (ds := d0 :: ds0) in *.
      assert (map (flip_pick cm dims) ds = put (full (m_shape m)) ax (rev (zrange k))) as ->; [|exact C].
      rewrite <- P0. rewrite <- (map_upd_put (pick0 cm) d (rev (zrange k)) ds ax (wf_distinct _ W _ _ D) X).
      apply map_ext_in. intros d1 J1. unfold flip_pick, upd. destruct (String.eqb_spec d1 d) as [->|N1].
      * rewrite (proj2 (mem_In' _ _) Jd), (pick0_len _ _ _ Lk). reflexivity.
      * destruct (mem d1 dims) eqn:M1'; [|reflexivity]. apply mem_In' in M1'.
        exfalso. apply N1. apply (ONE n ds d1 d D M1' Jd J1 Jx).
    + destruct (U3 n Q (NR n)) as [-> _]. rewrite Em. cbn [option_map].
      apply carried_recf; [apply wf_okm, (wf_vals _ W _ _ Em)|].
      assert (picks_of cm (flip_pick cm dims) (own0 cm) n = full (m_shape m)) as ->.
      2:{ apply carried_refl, (wf_vals _ W _ _ Em). }
      rewrite <- P0. unfold picks_of. rewrite D. destruct ds as [|d0 ds0]; [reflexivity|].
      apply map_ext_in. intros d1 J1. unfold flip_pick. destruct (mem d1 dims) eqn:M1'; [|reflexivity].
      apply mem_In' in M1'. exfalso. specialize (Iv n). unfold newf in Q. destruct (assoc n o) as [v|].
      * destruct Iv as (? & ? & ? & ? & ? & _ & _ & _ & _ & _ & ->). discriminate.
      * apply (Iv (d0 :: ds0) d1 D); [apply in_rev in M1'; exact M1'|exact J1].
Qed.

Lemma flip_axes {A} cm (a : nd A) dims : wf_patch (mkPatch cm a) -> NoDup dims ->
  (forall d, In d dims -> In d (cm_dims cm)) ->
  exists axes b, map_result (get_axis cm) dims = Ok axes /\
    apply_axes a (map (fun ax => (ax, flip_ix)) axes) = Some b /\
    nd_picked a b (map (flip_pick cm dims) (cm_dims cm)).
Proof.
  intros WP ND S. pose proof (wp_cm _ WP) as W. cbn [p_cm] in W.
  set (ax := fun d => match index_of d (cm_dims cm) with Some x => x | None => O end).
  assert (AX : forall d, In d dims -> index_of d (cm_dims cm) = Some (ax d)).
  { intros d J. destruct (proj2 (index_of_In d (cm_dims cm)) (S d J)) as [x X]. unfold ax. rewrite X. reflexivity. }
  exists (map ax dims).
  assert (Q : forall l pick b, NoDup l -> (forall d, In d l -> In d dims) ->
     (forall d, In d l -> pick d = pick0 cm d) -> nd_picked a b (map pick (cm_dims cm)) ->
     exists b', apply_axes b (map (fun x => (x, flip_ix)) (map ax l)) = Some b' /\
       nd_picked a b' (map (fun d => if mem d l then rev (pick0 cm d) else pick d) (cm_dims cm))).
  { induction l as [|d l IH]; intros pick b N Sl Pk Pb; [exists b; auto|].
    inversion N as [|? ? Nd N']; subst. destruct (wf_dim_coord cm d W (S d (Sl d (or_introl eq_refl)))) as (c & Ec & Wc & _).
    assert (Lc : dim_len cm d (c_len c)) by (exists c; auto).
    destruct (axis_step cm a b pick d (c_len c) (ax d) flip_ix (rev (zrange (c_len c))) (wf_dims _ W) Pb) as (b2 & E2 & P2).
    - apply AX, Sl. left; reflexivity.
    - apply c_len_nonneg. exact Wc.
    - rewrite Pk by (left; reflexivity). apply (pick0_len _ _ _ Lc).
    - apply reverse_positions, c_len_nonneg. exact Wc.
    - destruct (IH (upd pick d (rev (zrange (c_len c)))) b2 N') as (b' & E' & P').
      + intros; apply Sl; right; assumption.
      + intros d1 J1. rewrite upd_other by congruence. apply Pk. right; exact J1.
      + exact P2.
      + exists b'. cbn [map apply_axes]. rewrite E2. split; [exact E'|].
        erewrite map_ext_in; [exact P'|]. intros d1 _. unfold upd.
        destruct (String.eqb_spec d1 d) as [->|N1].
        * rewrite (proj2 (mem_false d l) Nd), (proj2 (mem_In' d (d :: l)) (or_introl eq_refl)).
          rewrite (pick0_len _ _ _ Lc). reflexivity.
        * assert (mem d1 (d :: l) = mem d1 l) as ->; [|reflexivity].
          apply Bool.eq_iff_eq_true. rewrite !mem_In'. cbn [In]. split; [intros [Q|Q]; [congruence|exact Q]|auto]. }
  destruct (Q dims (pick0 cm) a ND (fun d J => J) (fun d J => eq_refl)) as (b & Eb & Pb).
  { rewrite (dims_shape cm _ W (wp_shape _ WP)). apply nd_picked_full, (wp_nd _ WP). }
  exists b. split; [|split; [exact Eb|exact Pb]].
  apply map_result_map. intros d J. unfold get_axis. rewrite (AX d J). reflexivity.
Qed.

Lemma pt_flip_ok {A} (p : patch A) dims : wf_patch p -> plain_names (p_cm p) -> NoDup dims ->
  (forall d, In d dims -> In d (cm_dims (p_cm p))) ->
  (forall n ds d1 d2, assoc n (cm_dmap (p_cm p)) = Some ds -> In d1 dims -> In d2 dims ->
     In d1 ds -> In d2 ds -> d1 = d2) ->
  exists p', pt_flip p dims true = Ok p' /\ aligned p p' (flip_pick (p_cm p) dims) (own0 (p_cm p)).
Proof.
  intros WP PN ND S ONE. destruct p as [cm a]. cbn [p_cm p_data] in *. pose proof (wp_cm _ WP) as W. cbn [p_cm] in W.
  destruct (flip_axes cm a dims WP ND S) as (axes & b & E1 & E2 & P).
  destruct (cm_flip_ok cm dims W PN S ONE) as (cm' & E3 & W' & AL).
  assert (WP' : wf_patch (mkPatch cm' b)).
  { split; cbn [p_cm p_data].
    - exact W'.
    - apply P.
    - rewrite (proj1 AL). apply (wp_some _ WP).
    - rewrite (proj1 (proj2 P)). apply (aligned_dims cm cm' _ _ W W' AL). }
  destruct dims as [|d0 dims].
  - exists (mkPatch cm a). split; [reflexivity|]. apply aligned_self; [exact WP| |]; intros; reflexivity.
  - exists (mkPatch cm' b). cbn [pt_flip p_cm p_data]. rewrite E1. cbn [bind].
    assert (has_dup (d0 :: dims) = false) as ->.
    { clear - ND. induction ND as [|x l N ND IH]; [reflexivity|]. cbn. rewrite (proj2 (mem_false _ _) N). exact IH. }
    rewrite E2, E3. cbn [bind]. split; [apply new_patch_ok; apply WP'|].
    split; [exact WP'|]. split; [exact AL|exact P].
Qed.

Lemma pt_flip_data {A} (p : patch A) dims : wf_patch p -> NoDup dims ->
  (forall d, In d dims -> In d (cm_dims (p_cm p))) ->
  exists p', pt_flip p dims false = Ok p' /\ p_cm p' = p_cm p /\
    nd_picked (p_data p) (p_data p') (map (flip_pick (p_cm p) dims) (cm_dims (p_cm p))).
Proof.
  intros WP ND S. destruct p as [cm a]. cbn [p_cm p_data] in *. pose proof (wp_cm _ WP) as W. cbn [p_cm] in W.
  destruct (flip_axes cm a dims WP ND S) as (axes & b & E1 & E2 & P).
  destruct dims as [|d0 dims].
  - exists (mkPatch cm a). split; [reflexivity|]. split; [reflexivity|]. cbn [p_cm p_data].
    change (flip_pick cm []) with (pick0 cm). rewrite (dims_shape cm _ W (wp_shape _ WP)). apply nd_picked_full, (wp_nd _ WP).
  - exists (mkPatch cm b). cbn [pt_flip p_cm p_data]. rewrite E1. cbn [bind].
    assert (has_dup (d0 :: dims) = false) as ->.
    { clear - ND. induction ND as [|x l N ND IH]; [reflexivity|]. cbn. rewrite (proj2 (mem_false _ _) N). exact IH. }
    rewrite E2. cbn [bind]. split; [|split; [reflexivity|exact P]].
    apply new_patch_ok; [exact W|apply P|apply (wp_some _ WP)|].
    assert (nd_shape b = nd_shape a) as ->; [|apply (wp_shape _ WP)].
    rewrite (proj1 (proj2 P)). transitivity (map zlen (full (nd_shape a))); [|apply map_zlen_full, (wp_nd _ WP)].
    pose proof (dims_shape cm _ W (wp_shape _ WP)) as DS. cbn [p_cm p_data] in DS. rewrite <- DS. rewrite !map_map. apply map_ext. intros d. unfold flip_pick.
    destruct (mem d _); [apply zlen_rev|reflexivity].
Qed.
