(** Lemmas behind MergeProps.v: merge_coord_managers as a whole. *)
From Verif Require Import Base BaseFacts CoordModel CoordSpec CoordProofs CoordProofs2 CoordProofs5 NdModel NdSpec NdProofs
  FrameModel FrameProofs5 ChunkModel CmModel CmSpec CmProofs CmProofs2 CmProofs4 FourierProofs2 MergeModel MergeSpec MergeProofs
  MergeProofs2.
From Coq Require Import Strings.String ZifyBool Sorting.Permutation Sorting.Sorted.
Ltac Zify.zify_post_hook ::= Z.div_mod_to_equations.
Local Open Scope Z_scope.
Local Open Scope list_scope.

Section Core.
Context (drop : bool) (D : list string) (dim : string) (k : kind) (cms : list cman).
Hypothesis J : joinable D dim k cms.
Context (srt : list cman) (first' : cman) (srt' : list cman).
Hypothesis SRT : Forall2 (trimmed cms) srt srt'.
Hypothesis INS : forall cm, In cm srt <-> In cm cms.
Context (first : cman).
Hypothesis TF : trimmed cms first first'.
Hypothesis FI : In first cms.

Lemma srt_back cm' : In cm' srt' -> exists cm, In cm cms /\ trimmed cms cm cm'.
Proof.
  intros I. assert (G : forall l l', Forall2 (trimmed cms) l l' -> In cm' l' -> exists cm, In cm l /\ trimmed cms cm cm').
  { clear. induction 1 as [|x y l l' H F IH]; intros []; [subst; exists x; split; [left; reflexivity|exact H]|].
    destruct IH as (cm & I & T); [assumption|]. exists cm. split; [right; exact I|exact T]. }
  destruct (G _ _ SRT I) as (cm & I' & T). exists cm. split; [apply INS, I'|exact T].
Qed.
Lemma srt_fwd cm : In cm cms -> exists cm', In cm' srt' /\ trimmed cms cm cm'.
Proof.
  intros I%INS. assert (G : forall l l', Forall2 (trimmed cms) l l' -> In cm l -> exists cm', In cm' l' /\ trimmed cms cm cm').
  { clear. induction 1 as [|x y l l' H F IH]; intros []; [subst; exists y; split; [left; reflexivity|exact H]|].
    destruct IH as (cm' & I & T); [assumption|]. exists cm'. split; [right; exact I|exact T]. }
  apply (G _ _ SRT I).
Qed.

Lemma dims_shared d : In d D -> shared cms d [d].
Proof.
  intros I cm Ic. destruct (wf_dim_coord cm d (jn_wf _ _ _ _ J _ Ic)) as (c & _ & _ & E);
    [rewrite (jn_dims _ _ _ _ J _ Ic); exact I|exact E].
Qed.
Lemma trimmed_shared cm cm' n ds : trimmed cms cm cm' -> assoc n (cm_dmap cm') = Some ds -> shared cms n ds.
Proof.
  intros T E. destruct (shared_dec cms n (jn_some _ _ _ _ J)) as [[ds' S]|N].
  - destruct (tr_keep _ _ _ T n ds' S) as [_ E']. assert (ds' = ds) by congruence. subst. exact S.
  - destruct (tr_gone _ _ _ T n N) as [_ E']. congruence.
Qed.

(** The argument built from a coordinate that is not merged. *)
Definition agreeb (f : mcoord) (n : string) : bool :=
  forallb (fun cm => match assoc n (cm_coords cm) with Some m => m_eqb f m | None => false end) srt'.
Definition keepf (n : string) : list (string * kval) :=
  match assoc n (cm_coords first'), assoc n (cm_dmap first') with
  | Some f, Some ds => if agreeb f n then [(n, KTuple ds (VCoord f))] else []
  | _, _ => []
  end.

Lemma agreeb_spec n ds f : shared cms n ds -> assoc n (cm_coords first) = Some f ->
  (agreeb f n = true <-> agrees_with_all cms first n).
Proof.
  intros S E. unfold agreeb. rewrite forallb_forall. split.
  - intros H g a b Ig Ea Eb. destruct (srt_fwd g Ig) as (g' & Ig' & T). specialize (H g' Ig').
    destruct (tr_keep _ _ _ T n ds S) as [X _]. rewrite X, Eb in H. assert (a = f) by congruence. subst. apply m_eqb_spec, H.
  - intros H cm' I. destruct (srt_back cm' I) as (cm & Ic & T). destruct (tr_keep _ _ _ T n ds S) as [X _]. rewrite X.
    destruct (con_coord _ (wf_con _ (jn_wf _ _ _ _ J _ Ic)) n ds (S _ Ic)) as (m & Em & _). rewrite Em.
    apply m_eqb_spec. apply (H cm f m Ic E Em).
Qed.

Lemma non_merge_ok n ds f : shared cms n ds -> assoc n (cm_coords first) = Some f ->
  (drop = false \/ In n D -> agrees_with_all cms first n) -> non_merge drop first' srt' n = Ok (keepf n).
Proof.
  intros S E A. destruct (tr_keep _ _ _ TF n ds S) as [X Y]. rewrite E in X. unfold non_merge, keepf. rewrite X, Y.
  set (get := fun cm : cman => match assoc n (cm_coords cm) with Some m => m | None => MNP [] end).
  assert (Em : forall cm', In cm' srt' -> assoc n (cm_coords cm') = Some (get cm')).
  { intros cm' I. destruct (srt_back cm' I) as (cm & Ic & T). destruct (tr_keep _ _ _ T n ds S) as [X' _].
    destruct (con_coord _ (wf_con _ (jn_wf _ _ _ _ J _ Ic)) n ds (S _ Ic)) as (m & Em & _). unfold get. rewrite X', Em. reflexivity. }
  rewrite (map_result_map _ get) by (intros cm' I; rewrite (Em _ I); reflexivity). cbn [bind].
  assert (forallb (m_eqb f) (map get srt') = agreeb f n) as ->.
  { unfold agreeb. clear - Em. induction srt' as [|c t IH]; [reflexivity|]. cbn [map forallb].
    rewrite (Em c (or_introl eq_refl)). rewrite IH by (intros; apply Em; right; assumption). reflexivity. }
  destruct (agreeb f n) eqn:Q; [reflexivity|].
  assert (drop && negb (existsb (fun cm => mem n (cm_dims cm)) srt') = true) as ->; [|reflexivity].
  assert (NA : ~ agrees_with_all cms first n).
  { intros H. apply (agreeb_spec n ds f S E) in H. congruence. }
  destruct drop; [|exfalso; apply NA, A; left; reflexivity]. cbn [andb]. apply negb_true_iff.
  apply not_true_is_false. intros H. apply existsb_exists in H as (cm' & I & M). apply mem_In' in M.
  destruct (srt_back cm' I) as (cm & Ic & T). rewrite (tr_dims _ _ _ T), (jn_dims _ _ _ _ J _ Ic) in M.
  apply NA, A. right. exact M.
Qed.
Lemma non_merge_err n ds f : shared cms n ds -> assoc n (cm_coords first) = Some f ->
  ~ agrees_with_all cms first n -> drop = false \/ In n D -> non_merge drop first' srt' n = Err CoordMergeError.
Proof.
  intros S E NA Dr. destruct (tr_keep _ _ _ TF n ds S) as [X Y]. rewrite E in X. unfold non_merge. rewrite X, Y.
  set (get := fun cm : cman => match assoc n (cm_coords cm) with Some m => m | None => MNP [] end).
  assert (Em : forall cm', In cm' srt' -> assoc n (cm_coords cm') = Some (get cm')).
  { intros cm' I. destruct (srt_back cm' I) as (cm & Ic & T). destruct (tr_keep _ _ _ T n ds S) as [X' _].
    destruct (con_coord _ (wf_con _ (jn_wf _ _ _ _ J _ Ic)) n ds (S _ Ic)) as (m & Em & _). unfold get. rewrite X', Em. reflexivity. }
  rewrite (map_result_map _ get) by (intros cm' I; rewrite (Em _ I); reflexivity). cbn [bind].
  assert (forallb (m_eqb f) (map get srt') = agreeb f n) as ->.
  { unfold agreeb. clear - Em. induction srt' as [|c t IH]; [reflexivity|]. cbn [map forallb].
    rewrite (Em c (or_introl eq_refl)). rewrite IH by (intros; apply Em; right; assumption). reflexivity. }
  destruct (agreeb f n) eqn:Q; [exfalso; apply NA, (agreeb_spec n ds f S E), Q|].
  assert (drop && negb (existsb (fun cm => mem n (cm_dims cm)) srt') = false) as ->; [|reflexivity].
  destruct Dr as [->|I]; [reflexivity|]. apply andb_false_iff. right. apply negb_false_iff.
  apply existsb_exists. destruct (srt_fwd first FI) as (f' & I' & T'). exists f'. split; [exact I'|].
  apply mem_In'. rewrite (tr_dims _ _ _ T'), (jn_dims _ _ _ _ J _ FI). exact I.
Qed.

Definition to_merge : list string := coords_on dim first'.
Definition others : list string := filter (fun n => negb (mem n to_merge)) (map fst (cm_coords first')).

Lemma to_merge_In n : In n to_merge <-> exists ds, shared cms n ds /\ In dim ds.
Proof.
  unfold to_merge, coords_on. rewrite in_map_iff. split.
  - intros ([n' ds] & E & I). cbn [fst] in E. subst n'. apply filter_In in I as [I M]. cbn [snd] in M. apply mem_In' in M.
    apply in_assoc in I; [|apply (wf_dkeys _ (tr_wf _ _ _ TF))]. exists ds. split; [|exact M].
    apply (trimmed_shared _ _ _ _ TF I).
  - intros (ds & S & I). exists (n, ds). split; [reflexivity|]. apply filter_In. cbn [snd]. rewrite mem_In'. split; [|exact I].
    apply assoc_in. apply (tr_keep _ _ _ TF n ds S).
Qed.
Lemma others_In n : In n others <-> exists ds f, shared cms n ds /\ ~ In dim ds /\ assoc n (cm_coords first) = Some f.
Proof.
  unfold others. rewrite filter_In, negb_true_iff, mem_false, to_merge_In, <- assoc_In. split.
  - intros [[m E] N]. destruct (wf_lookup first' n m (tr_wf _ _ _ TF) E) as (ds & Ed & _).
    pose proof (trimmed_shared _ _ _ _ TF Ed) as S. exists ds, m. split; [exact S|]. split.
    + intros I. apply N. exists ds. auto.
    + destruct (tr_keep _ _ _ TF n ds S) as [X _]. rewrite <- X. exact E.
  - intros (ds & f & S & N & E). split.
    + exists f. destruct (tr_keep _ _ _ TF n ds S) as [X _]. rewrite X. exact E.
    + intros (ds' & S' & I). rewrite (shared_fun _ _ _ _ (jn_some _ _ _ _ J) S S') in N. contradiction.
Qed.
Lemma others_NoDup : NoDup others.
Proof. apply NoDup_filter, (wf_ckeys _ (tr_wf _ _ _ TF)). Qed.
Lemma to_merge_NoDup : NoDup to_merge.
Proof.
  unfold to_merge, coords_on. pose proof (wf_dkeys _ (tr_wf _ _ _ TF)) as N. revert N. generalize (cm_dmap first'). clear.
  induction l as [|[n ds] l IH]; intros N; [constructor|]. cbn in N. inversion N as [|? ? Nn Nl]; subst. cbn [filter snd].
  destruct (mem dim ds); [|apply IH, Nl]. cbn. constructor; [|apply IH, Nl].
  intros I. apply Nn. apply in_map_iff in I as (e & <- & I). apply filter_In in I as [I _]. apply in_map, I.
Qed.

Context (data : list Z).
Definition kwm : list (string * kval) :=
  List.concat (map keepf others) ++ map (fun n => (n, KTuple [dim] (VCoord (M1 (CArr k data))))) to_merge.

Lemma keepf_single n : keepf n = [] \/ exists v, keepf n = [(n, v)].
Proof.
  unfold keepf. destruct (assoc n (cm_coords first')); [|auto]. destruct (assoc n (cm_dmap first')); [|auto].
  destruct (agreeb m n); [right; eauto|auto].
Qed.
Lemma kwm_merged n ds : shared cms n ds -> In dim ds -> assoc n kwm = Some (KTuple [dim] (VCoord (M1 (CArr k data)))).
Proof.
  intros S I. unfold kwm. rewrite assoc_app2, assoc_concat_single; [|apply others_NoDup|intros; apply keepf_single].
  assert (mem n others = false) as ->.
  { apply mem_false. intros O. apply others_In in O as (ds' & f & S' & N & _).
    rewrite (shared_fun _ _ _ _ (jn_some _ _ _ _ J) S S') in I. contradiction. }
  rewrite assoc_const. rewrite (proj2 (mem_In' n to_merge)); [reflexivity|]. apply to_merge_In. eauto.
Qed.
Lemma kwm_other n ds f : shared cms n ds -> ~ In dim ds -> assoc n (cm_coords first) = Some f ->
  assoc n kwm = if agreeb f n then Some (KTuple ds (VCoord f)) else None.
Proof.
  intros S N E. unfold kwm. rewrite assoc_app2, assoc_concat_single; [|apply others_NoDup|intros; apply keepf_single].
  rewrite (proj2 (mem_In' n others)); [|apply others_In; eauto 6].
  unfold keepf. destruct (tr_keep _ _ _ TF n ds S) as [X Y]. rewrite X, Y, E.
  destruct (agreeb f n); cbn [assoc]; [rewrite String.eqb_refl; reflexivity|].
  rewrite assoc_const. assert (mem n to_merge = false) as ->; [|reflexivity]. apply mem_false. intros I.
  apply to_merge_In in I as (ds' & S' & I). rewrite (shared_fun _ _ _ _ (jn_some _ _ _ _ J) S S') in N. contradiction.
Qed.
Lemma kwm_gone n : (forall ds, ~ shared cms n ds) -> assoc n kwm = None.
Proof.
  intros H. unfold kwm. rewrite assoc_app2, assoc_concat_single; [|apply others_NoDup|intros; apply keepf_single].
  assert (mem n others = false) as ->.
  { apply mem_false. intros O. apply others_In in O as (ds' & f & S' & _). apply (H _ S'). }
  rewrite assoc_const. assert (mem n to_merge = false) as ->; [|reflexivity]. apply mem_false. intros I.
  apply to_merge_In in I as (ds' & S' & I). apply (H _ S').
Qed.

Lemma kwm_fit : (forall n, In n D -> n <> dim -> agrees_with_all cms first n) -> tuples_fit kwm D.
Proof.
  intros AG. pose proof (jn_wf _ _ _ _ J _ FI) as WF.
  assert (ONE : forall d, In d D -> exists c, assoc d kwm = Some (KTuple [d] (VCoord (M1 c))) /\
     (d <> dim -> assoc d (cm_coords first) = Some (M1 c))).
  { intros d I. pose proof (dims_shared d I) as S. destruct (string_dec d dim) as [->|N].
    - exists (CArr k data). split; [|congruence]. apply (kwm_merged dim [dim] S). left; reflexivity.
    - destruct (wf_dim_coord first d WF) as (c & E & _ & _); [rewrite (jn_dims _ _ _ _ J _ FI); exact I|].
      exists c. split; [|intros _; exact E]. rewrite (kwm_other d [d] (M1 c) S); [|intros [Q|[]]; congruence|exact E].
      rewrite (proj2 (agreeb_spec d [d] (M1 c) S E)); [reflexivity|]. apply (AG d I N). }
  split.
  - unfold kwm. rewrite map_app, map_map. cbn [fst]. rewrite map_id.
    destruct (keys_concat_single keepf others others_NoDup (fun x _ => keepf_single x)) as [A B].
    assert (NA : forall a b : list string, NoDup a -> NoDup b -> (forall x, In x a -> ~ In x b) -> NoDup (a ++ b)).
    { clear. induction a as [|x a IH]; intros b Na Nb H; [exact Nb|]. inversion Na; subst. cbn. constructor.
      - rewrite in_app_iff. intros [Q|Q]; [contradiction|]. apply (H x (or_introl eq_refl) Q).
      - apply IH; auto. intros y Hy. apply H. right; exact Hy. }
    apply NA; [exact A|apply to_merge_NoDup|]. intros x I I'. apply B in I. unfold others in I. apply filter_In in I as [_ M].
    apply negb_true_iff, mem_false in M. contradiction.
  - rewrite <- (jn_dims _ _ _ _ J _ FI). apply (wf_dims _ WF).
  - intros n v E. destruct (shared_dec cms n (jn_some _ _ _ _ J)) as [[ds S]|N]; [|rewrite (kwm_gone n N) in E; discriminate].
    destruct (in_dec string_dec dim ds) as [I|I].
    + rewrite (kwm_merged n ds S I) in E. exists [dim], (M1 (CArr k data)). split; [congruence|].
      split; [exact Logic.I|]. split; [repeat constructor; intros []|]. split; [intros d [<-|[]]; apply (jn_dim _ _ _ _ J)|].
      right. constructor; [|constructor]. exists (CArr k data). split; [|reflexivity].
      apply (kwm_merged dim [dim]); [apply dims_shared, (jn_dim _ _ _ _ J)|left; reflexivity].
    + destruct (con_coord _ (wf_con _ WF) n ds (S _ FI)) as (f & Ef & HD & HF). rewrite (kwm_other n ds f S I Ef) in E.
      destruct (agreeb f n); [|discriminate]. exists ds, f. split; [congruence|]. split; [apply wf_okm, (wf_vals _ WF _ _ Ef)|].
      split; [apply (wf_distinct _ WF _ _ (S _ FI))|]. rewrite (jn_dims _ _ _ _ J _ FI) in HD. split; [exact HD|].
      destruct HF as [->|HF]; [left; reflexivity|right].
      assert (G : forall l s, (forall d, In d l -> In d ds) -> Forall2 (dim_len first) l s ->
        Forall2 (fun d k => exists c, assoc d kwm = Some (KTuple [d] (VCoord (M1 c))) /\ c_len c = k) l s).
      { induction 2 as [|d x l s (c & Ec & Lc) F IH]; constructor.
        - assert (Id : In d ds) by (apply H; left; reflexivity).
          destruct (ONE d (HD d Id)) as (c' & A & B). exists c'. split; [exact A|].
          assert (d <> dim) by (intros ->; contradiction). specialize (B H0). assert (Q : c' = c) by congruence. rewrite Q. exact Lc.
        - apply IH. intros; apply H; right; assumption. }
      apply G; auto.
  - intros d I. destruct (ONE d I) as (c & A & _). eauto.
Qed.
End Core.
