(** Lemmas behind AggProps.v: several dimensions, and refusals. *)
From Verif Require Import Base BaseFacts CoordModel CoordSpec NdModel NdSpec FrameModel FrameProofs5 ChunkModel
  CmModel CmSpec CmProofs CmProofs2 CmProofs3 MergeModel ConcatSpec AggModel AggSpec AggProofs AggProofs2.
From Coq Require Import Strings.String ZifyBool Lia.
Local Open Scope Z_scope.
Local Open Scope list_scope.

Lemma asked_ok D l : l <> [] -> (forall d, In d l -> In d D) -> asked_dims D l = Ok l.
Proof.
  intros N S. unfold asked_dims. destruct l as [|d l]; [congruence|].
  assert (existsb (fun x => mem x (d :: l)) D = true) as ->.
  { apply existsb_exists. exists d. split; [apply S; left; reflexivity|apply mem_In'; left; reflexivity]. }
  assert (forallb (fun x => mem x D) (d :: l) = true) as -> by (apply forallb_forall; intros x I; apply mem_In', S, I). cbn [negb].
  f_equal. apply filter_keeps. intros x I. apply mem_In', S, I.
Qed.
Lemma run_empty {A} (f : list A -> A) l : forall p, wf_patch p -> plain_names (p_cm p) -> (forall d, In d l -> In d (cm_dims (p_cm p))) ->
  exists out, fold_left (fun acc d => do q <- acc; aggregate_one f HEmpty q d) l (Ok p) = Ok out /\
    steps (fun d => collapsed f d lone_or_unknown) l p out.
Proof.
  induction l as [|d l IH]; intros p W PN S; [exists p; split; [reflexivity|constructor]|].
  destruct (one_empty f p d W PN (S d (or_introl eq_refl))) as (q & E & C & P). cbn [fold_left bind]. rewrite E.
  destruct (IH q (co_wf _ _ _ _ _ C) P) as (out & EO & SO); [intros e I; rewrite (co_dims _ _ _ _ _ C); apply S; right; exact I|].
  exists out. split; [exact EO|]. econstructor; eauto.
Qed.
Lemma agg_empty {A} (f : list A -> A) (p : patch A) dim : wf_patch p -> plain_names (p_cm p) ->
  match dim with Some l => l <> [] /\ forall d, In d l -> In d (cm_dims (p_cm p)) | None => True end ->
  exists out, aggregate f HEmpty dim p = Ok out /\ steps (fun d => collapsed f d lone_or_unknown) (match dim with None => cm_dims (p_cm p) | Some l => l end) p out.
Proof.
  intros W PN H. unfold aggregate. rewrite asked_ok; [|destruct dim; [apply H|apply (wp_some _ W)]|destruct dim; [apply H|auto]].
  cbn [bind]. apply run_empty; [exact W|exact PN|destruct dim; [apply H|auto]].
Qed.
Lemma agg_func {A} (f : list A -> A) g (p : patch A) d c : wf_patch p -> plain_names (p_cm p) -> In d (cm_dims (p_cm p)) ->
  assoc d (cm_coords (p_cm p)) = Some (M1 c) -> concrete c -> c_kind c = KTime -> c_ints c <> [] ->
  exists out, aggregate f (HFunc g) (Some [d]) p = Ok out /\ collapsed f d (label_of g) p out.
Proof.
  intros W PN J Ec Cc K NE. destruct (one_func f g p d c W PN J Ec Cc K NE) as (out & E & C & _). exists out. split; [|exact C].
  unfold aggregate. rewrite asked_ok; [|discriminate|intros e [<-|[]]; exact J]. cbn [bind fold_left]. exact E.
Qed.

Lemma removed_dims {A} (f : list A -> A) d p q : wf_patch p -> removed f d p q -> forall e, In e (cm_dims (p_cm q)) <-> In e (cm_dims (p_cm p)) /\ e <> d.
Proof.
  intros W R e. destruct (re_dims _ _ _ _ R) as (ax & X & _ & ->). pose proof (wf_dims _ (wp_cm _ W)) as ND. revert ax X ND. generalize (cm_dims (p_cm p)) as D.
  induction D as [|x D IH]; intros [|ax] X ND; cbn in X; try discriminate; apply NoDup_cons_iff in ND as [NI ND].
  - injection X as ->. cbn [firstn skipn app]. split; [intros I; split; [right; exact I|intros ->; contradiction]|]. intros [[->|I] N]; [congruence|exact I].
  - cbn [firstn skipn app In]. rewrite (IH ax X ND). split; [intros [<-|[I N]]; split; auto|intros [[<-|I] N]; auto].
    intros ->. apply NI. eapply nth_error_In; exact X.
Qed.
Lemma run_squeeze {A} (f : list A -> A) l : forall p e, wf_patch p -> NoDup l -> (forall d, In d l -> In d (cm_dims (p_cm p))) ->
  In e (cm_dims (p_cm p)) -> ~ In e l ->
  exists out, fold_left (fun acc d => do q <- acc; aggregate_one f HSqueeze q d) l (Ok p) = Ok out /\ steps (removed f) l p out.
Proof.
  induction l as [|d l IH]; intros p e W ND S Ie Ne; [exists p; split; [reflexivity|constructor]|]. apply NoDup_cons_iff in ND as [NI ND].
  destruct (one_squeeze f p d W (S d (or_introl eq_refl))) as (q & E & C); [exists e; split; [exact Ie|intros ->; apply Ne; left; reflexivity]|].
  cbn [fold_left bind]. rewrite E. pose proof (removed_dims f d p q W C) as RD.
  destruct (IH q e (re_wf _ _ _ _ C) ND) as (out & EO & SO).
  - intros x I. apply RD. split; [apply S; right; exact I|intros ->; contradiction].
  - apply RD. split; [exact Ie|intros ->; apply Ne; left; reflexivity].
  - intros I. apply Ne. right; exact I.
  - exists out. split; [exact EO|]. econstructor; eauto.
Qed.
Lemma agg_squeeze {A} (f : list A -> A) (p : patch A) l e : wf_patch p -> l <> [] -> NoDup l -> (forall d, In d l -> In d (cm_dims (p_cm p))) ->
  In e (cm_dims (p_cm p)) -> ~ In e l ->
  exists out, aggregate f HSqueeze (Some l) p = Ok out /\ steps (removed f) l p out.
Proof.
  intros W NE ND S Ie Ne. unfold aggregate. rewrite asked_ok by assumption. cbn [bind].
  assert (forallb (fun x => mem x l) (cm_dims (p_cm p)) = false) as ->; [|eapply run_squeeze; eauto].
  apply Bool.not_true_iff_false. rewrite forallb_forall. intros H. apply Ne. apply mem_In'. apply H, Ie.
Qed.

Lemma agg_squeeze_all {A} (f : list A -> A) (p : patch A) dim : wf_patch p ->
  match dim with Some l => forall d, In d l <-> In d (cm_dims (p_cm p)) | None => True end -> aggregate f HSqueeze dim p = Err ParameterError.
Proof.
  intros W H. pose proof (wp_some _ W) as NE. unfold aggregate. rewrite asked_ok.
  - cbn [bind]. assert (forallb (fun x => mem x (match dim with Some l => l | None => cm_dims (p_cm p) end)) (cm_dims (p_cm p)) = true) as ->; [|reflexivity].
    apply forallb_forall. intros x I. apply mem_In'. destruct dim; [apply H, I|exact I].
  - destruct dim as [l|]; [|exact NE]. intros ->. destruct (cm_dims (p_cm p)) as [|d D]; [congruence|]. exact (proj2 (H d) (or_introl eq_refl)).
  - destruct dim; [apply H|auto].
Qed.
Lemma agg_unknown {A} (f : list A -> A) h (p : patch A) l d : In d l -> ~ In d (cm_dims (p_cm p)) ->
  aggregate f h (Some l) p = Err PatchCoordinateError \/ aggregate f h (Some l) p = Err ParameterError.
Proof.
  intros I N. unfold aggregate, asked_dims. destruct (existsb (fun x => mem x l) (cm_dims (p_cm p))); [|right; reflexivity]. cbn [negb].
  assert (forallb (fun x => mem x (cm_dims (p_cm p))) l = false) as ->; [|left; reflexivity].
  apply Bool.not_true_iff_false. rewrite forallb_forall. intros H. apply N, mem_In', H, I.
Qed.
Lemma agg_other {A} (f : list A -> A) (p : patch A) dim : wf_patch p -> aggregate f HOther dim p = Err ParameterError \/ aggregate f HOther dim p = Err PatchCoordinateError.
Proof.
  intros W. unfold aggregate. destruct (asked_dims (cm_dims (p_cm p)) _) as [ds|e] eqn:E; cbn [bind].
  - unfold asked_dims in E. destruct (negb (existsb _ _)) eqn:X; [discriminate|]. destruct (negb (forallb _ _)) eqn:F; [discriminate|]. injection E as <-.
    apply Bool.negb_false_iff in F. rewrite forallb_forall in F.
    rewrite filter_keeps by exact F. destruct (match dim with Some l => l | None => cm_dims (p_cm p) end) as [|d l].
    + apply Bool.negb_false_iff, existsb_exists in X as (x & _ & Q). discriminate.
    + cbn [fold_left bind]. assert (aggregate_one f HOther p d = Err ParameterError) as ->.
      { unfold aggregate_one. assert (I : In d (cm_dims (p_cm p))) by (apply mem_In', F; left; reflexivity).
        unfold get_axis. destruct (proj2 (index_of_In d _) I) as [ax ->]. cbn [bind].
        destruct (wf_dim_coord _ d (wp_cm _ W) I) as (c & Ec & _). unfold dim_coord. rewrite Ec. reflexivity. }
      left. clear F X. induction l as [|e l IH]; [reflexivity|]. cbn [fold_left bind]. apply IH.
  - unfold asked_dims in E. destruct (negb (existsb _ _)); [injection E as <-; auto|]. destruct (negb (forallb _ _)); [injection E as <-; auto|discriminate].
Qed.
