(** Joining patches that vary along no dimension, or along several. *)
From Verif Require Import Base BaseFacts CoordModel CoordSpec NdModel FrameModel CmModel CmSpec CmProofs MergeModel MergeSpec.
From Coq Require Import Strings.String.
Local Open Scope Z_scope.
Local Open Scope list_scope.

Lemma moved_varies d cm cm' cms : moved d cm cm' -> In cm' cms -> hd_error cms = Some cm -> varies cms d = true.
Proof.
  intros (mn & mx & st & mn' & mx' & st' & (c & E & Mn & Mx & S) & (c' & E' & Mn' & Mx' & S') & N) I H.
  destruct cms as [|x cms]; [discriminate|]. injection H as ->. unfold varies. rewrite Bool.negb_true_iff.
  apply Bool.not_true_iff_false. rewrite forallb_forall. intros F. specialize (F cm' I). unfold dim_row in F. rewrite E, E', Mn, Mx, Mn', Mx' in F.
  cbn in F. rewrite !Bool.andb_true_iff, !Z.eqb_eq in F. destruct F as (F1 & F2 & _). destruct N; contradiction.
Qed.
Lemma two_in {A} (l : list A) x y : In x l -> In y l -> x <> y -> exists a b t, l = a :: b :: t.
Proof. destruct l as [|a [|b t]]; cbn; intros X Y N; [contradiction| |eauto]. destruct X as [<-|[]], Y as [<-|[]]. contradiction. Qed.

Theorem join_ambiguous {A} argsort snap drop (p : patch A) ps d1 d2 q1 q2 :
  (forall q, In q ps -> cm_dims (p_cm q) = cm_dims (p_cm p)) ->
  In d1 (cm_dims (p_cm p)) -> In d2 (cm_dims (p_cm p)) -> d1 <> d2 -> In q1 ps -> In q2 ps ->
  moved d1 (p_cm p) (p_cm q1) -> moved d2 (p_cm p) (p_cm q2) ->
  join_patches argsort snap drop (p :: ps) = Err AssertionError.
Proof.
  intros D I1 I2 N J1 J2 M1 M2. unfold join_patches, merge_dim. cbn [map].
  assert (F : forallb (fun d => strs_eqb (cm_dims (p_cm p)) (cm_dims d)) (map p_cm ps) = true).
  { apply forallb_forall. intros c C. apply in_map_iff in C. destruct C as (q & <- & Q). rewrite (D q Q). now apply strs_eqb_eq. }
  rewrite F.
  assert (V : forall d q, In q ps -> moved d (p_cm p) (p_cm q) -> varies (p_cm p :: map p_cm ps) d = true).
  { intros d q Q M. apply (moved_varies d (p_cm p) (p_cm q)); auto. right. now apply in_map. }
  destruct (two_in (filter (varies (p_cm p :: map p_cm ps)) (cm_dims (p_cm p))) d1 d2) as (a & b & t & E); auto.
  - apply filter_In. split; [exact I1|exact (V _ _ J1 M1)].
  - apply filter_In. split; [exact I2|exact (V _ _ J2 M2)].
  - rewrite E. reflexivity.
Qed.

Theorem join_still {A} argsort snap drop (p : patch A) ps :
  (forall q, In q ps -> cm_dims (p_cm q) = cm_dims (p_cm p)) ->
  (forall d, In d (cm_dims (p_cm p)) -> exists mn mx st, forall q, In q (p :: ps) -> extent d (p_cm q) mn mx st) ->
  join_patches argsort snap drop (p :: ps) = Ok p.
Proof.
  intros D E. unfold join_patches, merge_dim. cbn [map].
  assert (F : forallb (fun d => strs_eqb (cm_dims (p_cm p)) (cm_dims d)) (map p_cm ps) = true).
  { apply forallb_forall. intros c C. apply in_map_iff in C. destruct C as (q & <- & Q). rewrite (D q Q). now apply strs_eqb_eq. }
  rewrite F.
  assert (V : forall d, In d (cm_dims (p_cm p)) -> varies (p_cm p :: map p_cm ps) d = false).
  { intros d I. destruct (E d I) as (mn & mx & st & X). unfold varies. rewrite Bool.negb_false_iff. apply forallb_forall.
    intros c C. change (p_cm p :: map p_cm ps) with (map p_cm (p :: ps)) in C. apply in_map_iff in C. destruct C as (q & <- & Q).
    destruct (X p (or_introl eq_refl)) as (c & Ec & Mn & Mx & S). destruct (X q Q) as (c' & Ec' & Mn' & Mx' & S').
    unfold dim_row. change (step_of c = st) in S. change (step_of c' = st) in S'. rewrite Ec, Ec', Mn, Mx, S, Mn', Mx', S'. cbn. rewrite !Z.eqb_refl. destruct st; cbn; [now rewrite Z.eqb_refl|reflexivity]. }
  destruct (filter _ (cm_dims (p_cm p))) as [|d t] eqn:Ef; [reflexivity|]. exfalso.
  assert (I : In d (filter (varies (p_cm p :: map p_cm ps)) (cm_dims (p_cm p)))) by (rewrite Ef; now left).
  apply filter_In in I. destruct I as (I & T). rewrite (V d I) in T. discriminate.
Qed.

Theorem join_dims_differ {A} argsort snap drop (p : patch A) ps q : In q ps -> cm_dims (p_cm q) <> cm_dims (p_cm p) ->
  join_patches argsort snap drop (p :: ps) = Err AssertionError.
Proof.
  intros Q N. unfold join_patches, merge_dim. cbn [map].
  destruct (forallb _ (map p_cm ps)) eqn:F; [|reflexivity]. exfalso. rewrite forallb_forall in F.
  specialize (F (p_cm q) (in_map _ _ _ Q)). apply strs_eqb_eq in F. congruence.
Qed.
