(** Lemmas behind MergeProps.v: merging coordinate managers. *)
From Verif Require Import Base BaseFacts CoordModel CoordSpec CoordProofs CoordProofs2 CoordProofs5 NdModel NdSpec NdProofs
  FrameModel FrameProofs5 ChunkModel CmModel CmSpec CmProofs CmProofs2 CmProofs4 FourierProofs2 MergeModel MergeSpec.
From Coq Require Import Strings.String ZifyBool Sorting.Permutation Sorting.Sorted.
Ltac Zify.zify_post_hook ::= Z.div_mod_to_equations.
Local Open Scope Z_scope.
Local Open Scope list_scope.

(** ** Equality *)
Lemma m_eqb_spec a b : m_eqb a b = true <-> same_coord a b.
Proof.
  destruct a as [c|k x|s], b as [d|l y|t]; cbn [m_eqb same_coord]; try (split; [discriminate|tauto]).
  - apply c_eqb_spec.
  - rewrite !andb_true_iff, all_pairs_close_spec. rewrite CmProofs.zlist_eqb_eq.
    split; [intros [[K S] F]; split; [destruct k, l; cbn in K; congruence|auto]|].
    intros (<- & S & F). split; [split; [now destruct k|exact S]|exact F].
  - apply CmProofs.zlist_eqb_eq.
Qed.

(** ** The stable sort *)
Section Sort.
Context {B : Type}.
Implicit Types l : list (Z * B).
Lemma insert_key_perm k (x : B) l : Permutation (insert_key k x l) ((k, x) :: l).
Proof.
  induction l as [|[j y] t IH]; cbn [insert_key]; [reflexivity|].
  destruct (k <=? j); [reflexivity|]. rewrite IH. apply perm_swap.
Qed.
Lemma sort_keyed_perm l : Permutation (sort_keyed l) l.
Proof.
  induction l as [|[k x] t IH]; [reflexivity|]. unfold sort_keyed in *. cbn [fold_right fst snd].
  rewrite insert_key_perm. constructor. exact IH.
Qed.
Lemma insert_key_sorted k (x : B) l : StronglySorted (fun a b => fst a <= fst b) l ->
  StronglySorted (fun a b => fst a <= fst b) (insert_key k x l).
Proof.
  induction 1 as [|[j y] t S IH F]; cbn [insert_key]; [repeat constructor|].
  destruct (k <=? j) eqn:K.
  - constructor; [constructor; assumption|]. constructor; [cbn; lia|].
    eapply Forall_impl; [|exact F]. intros [j' z]; cbn in *; lia.
  - constructor; [exact IH|]. rewrite Forall_forall in *. intros [j' z] I.
    apply (Permutation_in _ (insert_key_perm k x t)) in I as [I|I].
    + assert (j' = k) by congruence. subst. cbn; lia.
    + apply (F _ I).
Qed.
Lemma sort_keyed_sorted l : StronglySorted (fun a b => fst a <= fst b) (sort_keyed l).
Proof.
  induction l as [|[k x] t IH]; [constructor|]. unfold sort_keyed in *. cbn [fold_right fst snd].
  apply insert_key_sorted, IH.
Qed.
Lemma insert_key_filter k (x : B) l j : StronglySorted (fun a b => fst a <= fst b) l ->
  filter (fun e => fst e =? j) (insert_key k x l) = filter (fun e => fst e =? j) ((k, x) :: l).
Proof.
  induction 1 as [|[j' y] t S IH F]; cbn [insert_key]; [reflexivity|].
  destruct (k <=? j') eqn:K; [reflexivity|]. cbn [filter fst] in *. rewrite IH.
  destruct (k =? j) eqn:E1, (j' =? j) eqn:E2; try reflexivity. lia.
Qed.
Lemma sort_keyed_filter l j : filter (fun e => fst e =? j) (sort_keyed l) = filter (fun e => fst e =? j) l.
Proof.
  induction l as [|[k x] t IH]; [reflexivity|]. unfold sort_keyed in *. cbn [fold_right fst snd].
  rewrite insert_key_filter by apply sort_keyed_sorted. cbn [filter fst]. rewrite IH. reflexivity.
Qed.
Lemma filter_map_snd (key : B -> Z) j l : (forall e, In e l -> fst e = key (snd e)) ->
  filter (fun x => key x =? j) (map snd l) = map snd (filter (fun e => fst e =? j) l).
Proof.
  induction l as [|e t IH]; intros H; [reflexivity|]. cbn [map filter].
  rewrite (H e (or_introl eq_refl)). rewrite IH by (intros; apply H; right; assumption).
  destruct (key (snd e) =? j); reflexivity.
Qed.
Lemma sort_keyed_stable (key : B -> Z) (xs : list B) :
  stable_by key xs (map snd (sort_keyed (map (fun x => (key x, x)) xs))).
Proof.
  set (l := map (fun x => (key x, x)) xs).
  assert (Xs : map snd l = xs) by (unfold l; rewrite map_map; apply map_id).
  assert (K : forall e, In e l -> fst e = key (snd e)).
  { intros e I. unfold l in I. apply in_map_iff in I as (x & <- & _). reflexivity. }
  assert (K' : forall e, In e (sort_keyed l) -> fst e = key (snd e)).
  { intros e I. apply K. apply (Permutation_in _ (sort_keyed_perm l) I). }
  split; [|split].
  - rewrite <- Xs at 1. apply Permutation_map, sort_keyed_perm.
  - pose proof (sort_keyed_sorted l) as S. revert S K'. generalize (sort_keyed l). clear.
    induction 1 as [|e t S IH F]; intros K; [constructor|]. cbn [map]. constructor.
    + apply IH. intros; apply K; right; assumption.
    + rewrite Forall_forall in *. intros x I. apply in_map_iff in I as (e' & <- & I).
      rewrite <- (K e (or_introl eq_refl)), <- (K e' (or_intror I)). apply F, I.
  - intros j. rewrite (filter_map_snd key j _ K'), sort_keyed_filter, <- (filter_map_snd key j _ K), Xs. reflexivity.
Qed.
End Sort.

(** ** Common dimensions *)
Lemma common_dims_ok D cms : cms <> [] -> (forall cm, In cm cms -> cm_dims cm = D) -> common_dims cms = Ok D.
Proof.
  destruct cms as [|c t]; intros N H; [congruence|]. cbn [common_dims].
  rewrite (H c (or_introl eq_refl)).
  destruct (forallb _ t) eqn:E; [reflexivity|]. exfalso. apply not_true_iff_false in E. apply E.
  apply forallb_forall. intros x I. apply strs_eqb_eq. rewrite (H x (or_intror I)). reflexivity.
Qed.
Lemma common_dims_err c c' cms : In c cms -> In c' cms -> cm_dims c <> cm_dims c' -> common_dims cms = Err CoordMergeError.
Proof.
  destruct cms as [|c0 t]; intros I I' N; [destruct I|]. cbn [common_dims].
  destruct (forallb _ t) eqn:E; [|reflexivity]. exfalso. rewrite forallb_forall in E.
  assert (A : forall x, In x (c0 :: t) -> cm_dims x = cm_dims c0).
  { intros x [<-|J]; [reflexivity|]. symmetry. apply strs_eqb_eq, E, J. }
  apply N. rewrite (A _ I), (A _ I'). reflexivity.
Qed.

(** ** Unshared coordinates *)
Lemma tuple_eqb_eq a b : tuple_eqb a b = true <-> a = b.
Proof.
  destruct a as [n ds], b as [n' ds']. unfold tuple_eqb. cbn [fst snd].
  rewrite andb_true_iff, String.eqb_eq, strs_eqb_eq. split; [intros [-> ->]; reflexivity|intros [= -> ->]; auto].
Qed.
Lemma has_tuple_In l t : has_tuple l t = true <-> In t l.
Proof.
  unfold has_tuple. rewrite existsb_exists. split.
  - intros (x & I & E). apply tuple_eqb_eq in E. subst; exact I.
  - intros I. exists t. split; [exact I|]. now apply tuple_eqb_eq.
Qed.
Definition tupf (cm : cman) : list (string * list string) :=
  map (fun e => (fst e, dims_of cm (fst e))) (cm_coords cm).
Lemma coord_tuples_ok cm : wf_cm cm -> coord_tuples cm = Ok (tupf cm).
Proof.
  intros W. unfold coord_tuples, tupf. apply map_result_map. intros [n m] I. cbn [fst].
  apply in_assoc in I; [|apply (wf_ckeys _ W)]. destruct (wf_lookup cm n m W I) as (ds & E & _).
  unfold dims_of. rewrite E. reflexivity.
Qed.
Lemma tupf_In cm n ds : wf_cm cm -> (In (n, ds) (tupf cm) <-> assoc n (cm_dmap cm) = Some ds).
Proof.
  intros W. unfold tupf. rewrite in_map_iff. split.
  - intros ([n' m] & E & I). apply in_assoc in I; [|apply (wf_ckeys _ W)]. cbn [fst] in E.
    assert (n' = n) by congruence. subst n'. destruct (wf_lookup cm n m W I) as (ds' & E' & _).
    unfold dims_of in E. rewrite E' in E. congruence.
  - intros E. destruct (con_coord _ (wf_con _ W) n ds E) as (m & A & _). exists (n, m). cbn [fst].
    split; [unfold dims_of; rewrite E; reflexivity|apply assoc_in, A].
Qed.

Lemma unshared_spec cms n : (forall cm, In cm cms -> wf_cm cm) ->
  (In n (unshared (map tupf cms)) <->
   exists cm ds, In cm cms /\ assoc n (cm_dmap cm) = Some ds /\ ~ shared cms n ds).
Proof.
  intros W. unfold unshared. rewrite in_map_iff. split.
  - intros ([n' ds] & E & I). cbn in E. subst n'. apply filter_In in I as [I F].
    apply in_concat in I as (s & Is & I). apply in_map_iff in Is as (cm & <- & Ic).
    apply (tupf_In cm n ds (W _ Ic)) in I. exists cm, ds. split; [exact Ic|]. split; [exact I|].
    intros S. apply negb_true_iff, not_true_iff_false in F. apply F. apply forallb_forall.
    intros s Is. apply in_map_iff in Is as (g & <- & Ig). apply has_tuple_In.
    apply (tupf_In g n ds (W _ Ig)). apply S, Ig.
  - intros (cm & ds & I & E & N). exists (n, ds). split; [reflexivity|]. apply filter_In. split.
    + apply in_concat. exists (tupf cm). split; [apply in_map, I|]. apply (tupf_In cm n ds (W _ I)), E.
    + apply negb_true_iff. apply not_true_iff_false. intros F. apply N. intros g Ig.
      rewrite forallb_forall in F. specialize (F (tupf g) (in_map tupf _ _ Ig)).
      apply has_tuple_In in F. apply (tupf_In g n ds (W _ Ig)), F.
Qed.

(** [cm'] is [cm] without the coordinates that are not shared. *)
Record trimmed (cms : list cman) (cm cm' : cman) : Prop :=
  { tr_wf : wf_cm cm';
    tr_dims : cm_dims cm' = cm_dims cm;
    tr_keep : forall n ds, shared cms n ds ->
      assoc n (cm_coords cm') = assoc n (cm_coords cm) /\ assoc n (cm_dmap cm') = Some ds;
    tr_gone : forall n, (forall ds, ~ shared cms n ds) ->
      assoc n (cm_coords cm') = None /\ assoc n (cm_dmap cm') = None }.

Lemma drop_unshared_ok D cms : (forall cm, In cm cms -> wf_cm cm) -> (forall cm, In cm cms -> cm_dims cm = D) ->
  exists cms', drop_unshared cms = Ok cms' /\ Forall2 (trimmed cms) cms cms'.
Proof.
  intros W HD. unfold drop_unshared.
  rewrite (map_result_map coord_tuples tupf) by (intros x I; apply coord_tuples_ok, W, I). cbn [bind].
  pose proof (fun n => unshared_spec cms n W) as US.
  set (names := unshared (map tupf cms)) in *.
  assert (SH : forall n ds, shared cms n ds -> ~ In n names).
  { intros n ds S I. apply US in I as (cm & ds' & I & E & N). assert (ds' = ds) by (rewrite (S _ I) in E; congruence).
    subst. contradiction. }
  assert (SD : forall d, In d D -> shared cms d [d]).
  { intros d I cm J. destruct (wf_dim_coord cm d (W _ J)) as (c & _ & _ & E); [rewrite (HD _ J); exact I|exact E]. }
  assert (NS : forall cm n ds, In cm cms -> assoc n (cm_dmap cm) = Some ds -> ~ In n names -> shared cms n ds).
  { intros cm n ds I E N g Ig. destruct (assoc n (cm_dmap g)) as [ds'|] eqn:E'.
    - destruct (list_eq_dec string_dec ds' ds) as [->|Q]; [reflexivity|]. exfalso. apply N, US.
      exists cm, ds. split; [exact I|]. split; [exact E|]. intros S. rewrite (S _ Ig) in E'. congruence.
    - exfalso. apply N, US. exists cm, ds. split; [exact I|]. split; [exact E|]. intros S. rewrite (S _ Ig) in E'. congruence. }
  assert (T : forall cm, In cm cms -> exists cm', (do x <- drop_coords cm names; Ok (fst x)) = Ok cm' /\ trimmed cms cm cm').
  { intros cm I. destruct (drop_coords_spec cm names (W _ I)) as (cm' & E & W' & Dm & C & M).
    exists cm'. rewrite E. cbn [bind fst]. split; [reflexivity|].
    assert (DB : forall n ds, assoc n (cm_dmap cm) = Some ds -> (droppedb cm names n = true <-> In n names)).
    { intros n ds En. rewrite droppedb_spec. split; [|left; assumption]. intros [H|(ds' & d & E' & J & K)]; [exact H|].
      exfalso. assert (ds' = ds) by congruence. subst ds'.
      destruct (con_coord _ (wf_con _ (W _ I)) n ds En) as (_ & _ & HI & _). specialize (HI d J). rewrite (HD _ I) in HI.
      apply (SH _ _ (SD d HI) K). }
    split.
    - exact W'.
    - rewrite Dm. rewrite (HD _ I).
      assert (FA : forall l, (forall x, In x l -> In x D) -> filter (fun d => negb (mem d names)) l = l).
      { induction l as [|x l IH]; intros Hl; [reflexivity|]. cbn [filter].
        assert (mem x names = false) as ->.
        { apply mem_false. apply (SH _ _ (SD x (Hl x (or_introl eq_refl)))). }
        cbn [negb]. rewrite IH; [reflexivity|]. intros; apply Hl; right; assumption. }
      apply FA. auto.
    - intros n ds S. pose proof (S _ I) as En. rewrite C, M.
      assert (droppedb cm names n = false) as ->.
      { apply not_true_is_false. rewrite (DB n ds En). apply (SH n ds S). }
      auto.
    - intros n NSn. rewrite C, M. destruct (assoc n (cm_dmap cm)) as [ds|] eqn:En.
      + assert (droppedb cm names n = true) as ->; [|auto]. apply (DB n ds En).
        destruct (in_dec string_dec n names) as [J|J]; [exact J|]. exfalso. apply (NSn ds). apply (NS cm n ds I En J).
      + assert (assoc n (cm_coords cm) = None) as ->; [|destruct (droppedb cm names n); auto].
        destruct (assoc n (cm_coords cm)) as [m|] eqn:Em; [|reflexivity].
        destruct (wf_lookup cm n m (W _ I) Em) as (ds & E' & _). congruence. }
  destruct names as [|x0 names0] eqn:EN.
  - exists cms. split; [reflexivity|].
    assert (G : forall l, (forall x, In x l -> In x cms) -> Forall2 (trimmed cms) l l).
    { induction l as [|cm l IH]; intros Hl; constructor; [|apply IH; intros; apply Hl; right; assumption].
      assert (I : In cm cms) by (apply Hl; left; reflexivity). split.
      - apply W, I.
      - reflexivity.
      - intros n ds S. split; [reflexivity|apply S, I].
      - intros n N. assert (E : assoc n (cm_dmap cm) = None).
        { destruct (assoc n (cm_dmap cm)) as [ds|] eqn:En; [|reflexivity]. exfalso. apply (N ds), (NS cm n ds I En). intros []. }
        split; [|exact E]. destruct (assoc n (cm_coords cm)) as [m|] eqn:Em; [|reflexivity].
        destruct (wf_lookup cm n m (W _ I) Em) as (ds & E' & _). congruence. }
    apply G. auto.
  - clear EN. revert T. generalize (x0 :: names0). intros ns T. clear - T.
    assert (G : forall l, (forall x, In x l -> In x cms) -> exists l',
       map_result (fun cm => do x <- drop_coords cm ns; Ok (fst x)) l = Ok l' /\ Forall2 (trimmed cms) l l').
    { induction l as [|cm l IH]; intros Hl; [exists []; split; [reflexivity|constructor]|].
      destruct (T cm (Hl cm (or_introl eq_refl))) as (cm' & E & Tr).
      destruct IH as (l' & E' & F); [intros; apply Hl; right; assumption|].
      exists (cm' :: l'). cbn [map_result]. rewrite E. cbn [bind]. rewrite E'. cbn [bind]. split; [reflexivity|constructor; assumption]. }
    apply G. auto.
Qed.
