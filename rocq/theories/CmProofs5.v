(** Lemmas behind CmProps.v: patch select and order. *)
From Verif Require Import Base BaseFacts CoordModel CoordSpec CoordProofs CoordProofs2 CoordProofs3
  CoordProofs4 CoordProofs5 NdModel NdSpec NdProofs NdProofs2 FrameModel FrameProofs5 ChunkModel CmModel CmSpec
  CmProofs CmProofs2 CmProofs3 CmProofs4.
From Coq Require Import Strings.String ZifyBool Sorting.Permutation Sorting.Sorted.
Ltac Zify.zify_post_hook ::= Z.div_mod_to_equations.
Local Open Scope Z_scope.
Local Open Scope list_scope.

(** ** Splitting the keywords *)
Lemma insert_str_perm x l : Permutation (insert_str x l) (x :: l).
Proof.
  induction l as [|y t IH]; cbn; [reflexivity|]. destruct (String.leb x y); [reflexivity|].
  rewrite IH. apply perm_swap.
Qed.
Lemma sort_strs_perm l : Permutation (sort_strs l) l.
Proof. induction l as [|x t IH]; cbn; [reflexivity|]. rewrite insert_str_perm, IH. reflexivity. Qed.

Lemma dup_dims_false l : NoDup l -> dup_dims l = false.
Proof.
  induction 1 as [|x l N ND IH]; cbn; [reflexivity|]. rewrite IH, orb_false_r.
  destruct (existsb (strs_eqb x) l) eqn:E; [|reflexivity]. apply existsb_exists in E.
  destruct E as (y & J & E). apply strs_eqb_eq in E. subst y. contradiction.
Qed.

Definition lookup_kw (kw : list (string * selarg)) (names : list string) : list (string * selarg) :=
  List.concat (map (fun n => match assoc n kw with Some a => [(n, a)] | None => [] end) names).

Lemma lookup_kw_names kw names : (forall n, In n names -> In n (map fst kw)) ->
  map fst (lookup_kw kw names) = names.
Proof.
  unfold lookup_kw. induction names as [|n t IH]; intros H; cbn; [reflexivity|].
  destruct (proj2 (assoc_In n kw) (H n (or_introl eq_refl))) as [a ->]. cbn. f_equal.
  apply IH. intros; apply H; right; assumption.
Qed.
Lemma lookup_kw_in kw names e : In e (lookup_kw kw names) -> In (fst e) names /\ assoc (fst e) kw = Some (snd e).
Proof.
  unfold lookup_kw. intros J. apply in_concat in J. destruct J as (l & J1 & J2).
  apply in_map_iff in J1. destruct J1 as (n & <- & Jn). destruct (assoc n kw) as [a|] eqn:E; [|destruct J2].
  destruct J2 as [<-|[]]. cbn. auto.
Qed.

Lemma NoDup_map_in {A B} (f : A -> B) l l' : NoDup (map f l') -> NoDup l -> (forall x, In x l -> In x l') ->
  NoDup (map f l).
Proof.
  intros N ND H. induction ND as [|x l X ND IH]; cbn; constructor.
  - intros J. apply in_map_iff in J. destruct J as (y & E & J). apply X.
    assert (x = y) as ->; [|exact J].
    assert (Q : forall (l0 : list A) a b, NoDup (map f l0) -> In a l0 -> In b l0 -> f a = f b -> a = b).
    { clear. induction l0 as [|z l0 IH]; intros a b N Ja Jb E; [destruct Ja|].
      cbn in N. inversion N as [|? ? X N']; subst. destruct Ja as [->|Ja], Jb as [->|Jb]; auto.
      - exfalso. apply X. rewrite E. apply in_map. exact Jb.
      - exfalso. apply X. rewrite <- E. apply in_map. exact Ja. }
    apply (Q l'); auto; apply H; [left; reflexivity|right; exact J].
  - apply IH. intros; apply H; right; assumption.
Qed.

Lemma single_lists_one cm (kw : list (string * selarg)) : wf_cm cm ->
  (forall e, In e kw -> In (fst e) (map fst (cm_coords cm))) -> separate cm (map fst kw) ->
  exists names, single_dim_lists cm kw = Ok [lookup_kw kw names] /\ NoDup names /\
    (forall n, In n names <-> In n (map fst kw)).
Proof.
  intros W K S. set (used := sort_strs (filter (fun n => mem n (map fst kw)) (map fst (cm_coords cm)))).
  assert (ND : NoDup used).
  { unfold used. apply (Permutation_NoDup (Permutation_sym (sort_strs_perm _))). apply NoDup_filter. apply (wf_ckeys _ W). }
  assert (IN : forall n, In n used <-> In n (map fst kw)).
  { intros n. unfold used. rewrite (Permutation_in' eq_refl (sort_strs_perm _)), filter_In, mem_In'.
    split; [intros [_ J]; exact J|]. intros J. split; [|exact J]. apply in_map_iff in J.
    destruct J as (e & <- & J). apply K. exact J. }
  exists used. split; [|auto]. unfold single_dim_lists. fold used.
  rewrite (map_result_map _ (dims_of cm)).
  - cbn [bind]. rewrite dup_dims_false; [reflexivity|].
    apply (NoDup_map_in (dims_of cm) used (map fst kw)); auto. intros x J. apply IN. exact J.
  - intros n J. apply IN in J. apply in_map_iff in J. destruct J as (e & <- & J). apply K in J.
    apply (wf_keys _ W) in J. apply assoc_In in J. destruct J as [ds J]. unfold dims_of. rewrite J. reflexivity.
Qed.

Lemma check_relative_ok cm kw : wf_cm cm -> separate cm (map fst kw) ->
  (forall e : string * selarg, In e kw -> In (fst e) (map fst (cm_coords cm))) -> check_relative cm kw = Ok tt.
Proof.
  intros W S K. unfold check_relative.
  assert (filter (fun n => mem n (map fst (cm_coords cm))) (map fst kw) = map fst kw) as ->.
  { assert (F : forall n, In n (map fst kw) -> mem n (map fst (cm_coords cm)) = true).
    { intros n J. apply mem_In'. apply in_map_iff in J. destruct J as (e & <- & J). apply K. exact J. }
    revert F. generalize (map fst kw). induction l as [|x t IH]; intros F; cbn; [reflexivity|].
    rewrite (F x (or_introl eq_refl)). f_equal. apply IH. intros; apply F; right; assumption. }
  rewrite (map_result_map _ (dims_of cm)).
  - cbn [bind]. rewrite dup_dims_false; [reflexivity|exact S].
  - intros n J. apply in_map_iff in J. destruct J as (e & <- & J). apply K in J.
    apply (wf_keys _ W) in J. apply assoc_In in J. destruct J as [ds J]. unfold dims_of. rewrite J. reflexivity.
Qed.

Lemma separate_NoDup cm names : separate cm names -> NoDup names.
Proof. apply NoDup_map_inv. Qed.

(** ** One pass, any operation *)
Lemma cm_select_one {A} (p : patch A) relative samples op psf kw : wf_patch p -> plain_names (p_cm p) ->
  separate (p_cm p) (map fst kw) ->
  (forall e, In e kw -> exists c, assoc (fst e) (cm_coords (p_cm p)) = Some (M1 c) /\
     answers op c (snd e) (psf (fst e))) ->
  exists cm' b pick own, cm_select (p_cm p) (p_data p) relative samples op kw = Ok (cm', b) /\
    aligned p (mkPatch cm' b) pick own /\ picks_kw (p_cm p) psf (map fst kw) pick own.
Proof.
  intros WP PN S H. destruct p as [cm a]. cbn [p_cm p_data] in *. pose proof (wp_cm _ WP) as W. cbn [p_cm] in W.
  assert (K : forall e, In e kw -> In (fst e) (map fst (cm_coords cm))).
  { intros e J. destruct (H e J) as (c & E & _). apply assoc_In. eauto. }
  unfold cm_select.
  assert ((if relative || samples then check_relative cm kw else Ok tt) = Ok tt) as ->.
  { destruct (relative || samples); [apply check_relative_ok; assumption|reflexivity]. }
  cbn [bind]. destruct (single_lists_one cm kw W K S) as (names & -> & ND & IN). cbn [bind].
  pose proof (lookup_kw_names kw names (fun n J => proj1 (IN n) J)) as LN.
  destruct (select_pass cm a op psf (lookup_kw kw names) WP PN) as
    (x & kws & cm' & b & pick & own & E1 & E2 & E3 & E4 & AL & PK).
  { split; [|split].
    - intros e J. apply lookup_kw_in in J. destruct J as [_ J].
      apply (H (fst e, snd e)). apply assoc_in. exact J.
    - assert (Sn : separate cm names) by (apply (NoDup_map_in (dims_of cm) names (map fst kw)); auto; intros; apply IN; assumption).
      rewrite <- LN in Sn.
      assert (Q : forall l, (forall e, In e l -> exists c, assoc (fst e) (cm_coords cm) = Some (M1 c)) ->
        separate cm (map fst l) -> NoDup (kdims cm l) /\ forall d, In d (kdims cm l) -> In [d] (map (dims_of cm) (map fst l))).
      { induction l as [|e l IH]; intros Hl Sl; [cbn; split; [constructor|intros d []]|].
        destruct (Hl e (or_introl eq_refl)) as (c & Ec). destruct (wf_1d cm _ c W Ec) as (ds & D & Hd).
        cbn [map] in Sl. unfold separate in Sl. cbn [map] in Sl. inversion Sl as [|? ? X Sl']; subst.
        destruct (IH (fun e' J => Hl e' (or_intror J)) Sl') as [N1 N2].
        unfold kdims in *. cbn [flat_map map]. rewrite D. cbn [In].
        assert (Dn : dims_of cm (fst e) = ds) by (unfold dims_of; rewrite D; reflexivity).
        rewrite Dn in *. destruct Hd as [->|(d & -> & _)]; cbn [app].
        - split; [exact N1|]. intros d J. right. apply N2. exact J.
        - split; [constructor; [intros J; apply X, N2, J|exact N1]|].
          intros d' [<-|J]; [left; reflexivity|right; apply N2; exact J]. }
      apply (Q (lookup_kw kw names)); [|exact Sn].
      intros e J. apply lookup_kw_in in J. destruct J as [_ J].
      destruct (H (fst e, snd e)) as (c & Ec & _); [apply assoc_in; exact J|]. eauto.
    - rewrite LN. exact ND. }
  cbn [select_loop]. rewrite E1. cbn [bind]. rewrite E2. cbn [bind]. rewrite E3. cbn [bind]. rewrite E4.
  exists cm', b, pick, own. split; [reflexivity|]. split; [exact AL|].
  rewrite LN in PK. destruct PK as (P1 & P2 & P3 & P4). split; [|split; [|split]].
  - intros n d J. apply P1. apply IN. exact J.
  - intros n J. apply P2. apply IN. exact J.
  - intros d J. apply P3. intros n Jn. apply J. apply IN. exact Jn.
  - intros n J. apply P4. intros Jn. apply J. apply IN. exact Jn.
Qed.

(** ** Patch select *)
Lemma zsorted_full ps n : zsorted ps -> (forall i, In i ps -> 0 <= i < n) -> zlen ps = n -> ps = zrange n.
Proof.
  intros S B L. apply zsorted_ext; [exact S|apply zsorted_zrange|]. intros x. rewrite in_zrange. split; [apply B|].
  intros Hx. assert (incl (zrange n) ps) as I; [|apply I, in_zrange; exact Hx].
  apply NoDup_length_incl.
  - apply zsorted_NoDup. exact S.
  - unfold zlen in L. pose proof (zlen_zrange n) as Z0. unfold zlen in Z0. lia.
  - intros i J. apply in_zrange. apply B. exact J.
Qed.

Lemma cm_aligned_full cm pick own : wf_cm cm ->
  (forall d, In d (cm_dims cm) -> pick d = pick0 cm d) ->
  (forall n, assoc n (cm_dmap cm) = Some [] -> own n = own0 cm n) -> cm_aligned cm cm pick own.
Proof.
  intros W P O. split; [reflexivity|]. split; [reflexivity|]. intros n.
  destruct (assoc n (cm_coords cm)) as [m|] eqn:E; [|exact I].
  assert (picks_of cm pick own n = full (m_shape m)) as ->.
  { rewrite <- (picks0 cm n m W E). destruct (wf_lookup cm n m W E) as (ds & D & S & _).
    unfold picks_of. rewrite D. destruct ds as [|d ds]; [apply O; exact D|].
    apply map_ext_in. intros x J. apply P. apply S. exact J. }
  apply carried_refl. apply (wf_vals _ W _ _ E).
Qed.

Lemma dims_shape cm s : wf_cm cm -> Forall2 (dim_len cm) (cm_dims cm) s -> map (pick0 cm) (cm_dims cm) = full s.
Proof.
  intros _ F. unfold full. induction F as [|d k l s' H F IH]; cbn; [reflexivity|].
  rewrite (pick0_len _ _ _ H). f_equal. exact IH.
Qed.

Lemma aligned_self {A} (p : patch A) pick own : wf_patch p ->
  (forall d, In d (cm_dims (p_cm p)) -> pick d = pick0 (p_cm p) d) ->
  (forall n, assoc n (cm_dmap (p_cm p)) = Some [] -> own n = own0 (p_cm p) n) -> aligned p p pick own.
Proof.
  intros WP P O. split; [exact WP|]. split; [apply cm_aligned_full; auto; apply (wp_cm _ WP)|].
  assert (map pick (cm_dims (p_cm p)) = full (nd_shape (p_data p))) as ->.
  { rewrite <- (dims_shape (p_cm p) _ (wp_cm _ WP) (wp_shape _ WP)). apply map_ext_in. exact P. }
  apply nd_picked_full. apply (wp_nd _ WP).
Qed.

Lemma map_eq_in {A B} (f g : A -> B) l : map f l = map g l -> forall x, In x l -> f x = g x.
Proof.
  induction l as [|y l IH]; intros E x; [intros []|]. cbn in E. injection E as E1 E2.
  intros [<-|J]; auto.
Qed.

Lemma c_sel_answers c rel smp arg ps : wf_coord c -> asks c rel smp arg ps ->
  answers (fun c a => c_sel c rel smp a) c arg ps /\ zsorted ps.
Proof.
  intros W A. destruct (c_sel_asks c rel smp arg ps W A) as (c' & ix & E & P & B).
  destruct (c_sel_sound c rel smp arg c' ix W E) as (qs & Q & K & C & S).
  rewrite P in Q. injection Q as <-. split; [exists c', ix; auto|auto].
Qed.

Lemma pt_select_one {A} (p : patch A) rel smp psf kw : wf_patch p -> plain_names (p_cm p) ->
  separate (p_cm p) (map fst kw) ->
  (forall n arg, In (n, arg) kw -> exists c, assoc n (cm_coords (p_cm p)) = Some (M1 c) /\
     asks c rel smp arg (psf n)) ->
  (forall n, In n (map fst kw) -> assoc n (cm_dmap (p_cm p)) = Some [] -> private n = false) ->
  exists p' pick own, pt_select p rel smp kw = Ok p' /\ aligned p p' pick own /\
    picks_kw (p_cm p) psf (map fst kw) pick own.
Proof.
  intros WP PN S H PR. pose proof (wp_cm _ WP) as W. set (op := fun c a => c_sel c rel smp a).
  assert (H' : forall e, In e kw -> exists c, assoc (fst e) (cm_coords (p_cm p)) = Some (M1 c) /\
     answers op c (snd e) (psf (fst e)) /\ zsorted (psf (fst e))).
  { intros [n arg] J. destruct (H n arg J) as (c & E & As). exists c. split; [exact E|].
    apply c_sel_answers; [apply (wf_vals _ W _ _ E)|exact As]. }
  destruct (cm_select_one p rel smp op psf kw WP PN S) as (cm' & b & pick & own & E & AL & PK).
  { intros e J. destruct (H' e J) as (c & Ec & An & _). eauto. }
  unfold pt_select.
  assert (forallb (fun e => mem (fst e) (map fst (cm_coords (p_cm p)))) kw = true) as ->.
  { apply forallb_forall. intros e J. apply mem_In', assoc_In. destruct (H' e J) as (c & Ec & _). eauto. }
  cbn [negb]. fold op. rewrite E. cbn [bind fst snd].
  pose proof AL as (WP' & AC & ND). cbn [p_cm p_data] in *.
  destruct (zlist_eqb (nd_shape b) (nd_shape (p_data p)) && cm_approx cm' (p_cm p)) eqn:Q.
  - apply andb_prop in Q. destruct Q as [Q1 Q2]. apply zlist_eqb_eq in Q1.
    exists p, pick, own. split; [reflexivity|]. split; [|exact PK].
    destruct PK as (P1 & P2 & P3 & P4).
    apply aligned_self; [exact WP| |].
    + intros d J. destruct (in_dec string_dec d (kdims (p_cm p) kw)) as [Jd|Jd].
      2:{ apply P3. intros n Jn Dn. apply Jd. apply in_flat_map. apply in_map_iff in Jn.
          destruct Jn as (e & <- & Je). exists e. split; [exact Je|]. rewrite Dn. left; reflexivity. }
      apply in_flat_map in Jd. destruct Jd as (e & Je & Jd). destruct (H' e Je) as (c & Ec & An & So).
      destruct (wf_1d _ _ c W Ec) as (ds & D & Hd). rewrite D in Jd.
      destruct Hd as [->|(d0 & -> & _ & Ld)]; [destruct Jd|]. destruct Jd as [->|[]].
      assert (PD : pick d = psf (fst e)) by (apply P1; [apply in_map; exact Je|exact D]).
      rewrite (pick0_len _ _ _ Ld). rewrite PD. apply zsorted_full.
      * exact So.
      * destruct An as (c' & ix & _ & Pi & _). apply (indexer_positions_in_range _ _ _ (c_len_nonneg c (wf_vals _ W _ _ Ec)) Pi).
      * destruct ND as (_ & SH & _). rewrite SH in Q1.
        assert (SH0 : map zlen (map (pick0 (p_cm p)) (cm_dims (p_cm p))) = nd_shape (p_data p)).
        { rewrite (dims_shape (p_cm p) _ W (wp_shape _ WP)). apply map_zlen_full. apply (wp_nd _ WP). }
        rewrite <- SH0, !map_map in Q1. apply map_eq_in with (x := d) in Q1; [|exact J].
        rewrite PD, (pick0_len _ _ _ Ld), zlen_zrange in Q1. rewrite Q1.
        pose proof (c_len_nonneg c (wf_vals _ W _ _ Ec)). lia.
    + intros n D. destruct (in_dec string_dec n (map fst kw)) as [Jn|Jn]; [|apply P4; exact Jn].
      rewrite (P2 n Jn D). pose proof (PR n Jn D) as Pn. apply in_map_iff in Jn. destruct Jn as (e & <- & Je).
      destruct (H' e Je) as (c & Ec & An & So). unfold own0. rewrite Ec. unfold full. cbn [m_shape map].
      f_equal. apply zsorted_full.
      * exact So.
      * destruct An as (c' & ix & _ & Pi & _). apply (indexer_positions_in_range _ _ _ (c_len_nonneg c (wf_vals _ W _ _ Ec)) Pi).
      * destruct AC as (AD & _ & AC). pose proof (AC (fst e)) as ACn. rewrite Ec in ACn.
        destruct (assoc (fst e) (cm_coords cm')) as [m'|] eqn:Em; [|contradiction].
        unfold cm_approx in Q2. apply andb_prop in Q2. destruct Q2 as [_ Q2].
        rewrite forallb_forall in Q2. specialize (Q2 (fst e)).
        rewrite Em, Ec in Q2. unfold m_approx in Q2.
        assert (In (fst e) (public_names cm')) as Pu.
        { unfold public_names. apply filter_In. split; [apply assoc_In; eauto|]. rewrite Pn. apply orb_true_r. }
        specialize (Q2 Pu). apply andb_prop in Q2. destruct Q2 as [Q2 _]. apply zlist_eqb_eq in Q2.
        pose proof (carried_shape _ _ _ (wf_okm _ (wf_vals _ (wp_cm _ WP') _ _ Em)) ACn) as SH.
        unfold picks_of in SH. rewrite D, (P2 (fst e)) in SH; [|apply in_map; exact Je|exact D].
        rewrite Q2 in SH. cbn in SH. congruence.
  - exists (mkPatch cm' b), pick, own. split; [|split; assumption].
    apply new_patch_ok; apply WP'.
Qed.
