(** Lemmas behind CmProps.v: transpose and drop. *)
From Verif Require Import Base BaseFacts CoordModel CoordSpec CoordProofs CoordProofs2 CoordProofs3
  CoordProofs4 CoordProofs5 NdModel NdSpec NdProofs NdProofs2 NdProofs3 FrameModel FrameProofs5 ChunkModel CmModel CmSpec
  CmProofs CmProofs2 CmProofs3 CmProofs4 CmProofs5 CmProofs8 CmProofs10 CmProofs12.
From Coq Require Import Strings.String ZifyBool Sorting.Permutation Sorting.Sorted.
Ltac Zify.zify_post_hook ::= Z.div_mod_to_equations.
Local Open Scope Z_scope.
Local Open Scope list_scope.

(** ** Axes by name *)
Lemma index_of_nth l k (d : string) : NoDup l -> nth_error l k = Some d -> index_of d l = Some k.
Proof.
  intros ND. revert k. induction ND as [|x t N ND IH]; intros [|k] E; try discriminate; cbn [nth_error] in E; cbn [index_of].
  - injection E as ->. rewrite String.eqb_refl. reflexivity.
  - destruct (String.eqb_spec d x) as [->|]; [exfalso; apply N; eapply nth_error_In; eauto|].
    rewrite (IH k E). reflexivity.
Qed.

Lemma find_axes D : NoDup D -> forall D' axes, traverse (fun d => index_of d D) D' = Some axes ->
  forall k d, nth_error D k = Some d -> find_nat k axes = index_of d D'.
Proof.
  intros ND. induction D' as [|x t IH]; intros axes; cbn [traverse]; [intros [= <-]; reflexivity|].
  destruct (index_of x D) as [i|] eqn:I; [|discriminate].
  destruct (traverse _ t) as [r|] eqn:T; [|discriminate]. intros [= <-] k d E. cbn [find_nat index_of].
  rewrite (IH r eq_refl k d E).
  destruct (Nat.eqb_spec k i) as [->|N], (String.eqb_spec d x) as [->|M].
  - reflexivity.
  - apply index_of_spec in I. destruct I as [I _]. congruence.
  - rewrite (index_of_nth D k x ND E) in I. congruence.
  - destruct (index_of d t); reflexivity.
Qed.

(** Every list of the right length is given by a function of the names. *)
Lemma by_name (D : list string) (ix : list Z) : NoDup D -> List.length ix = List.length D ->
  exists pos, ix = map pos D.
Proof.
  intros ND. revert ix. induction ND as [|x t N ND IH]; intros [|i ix] L; try discriminate.
  - exists (fun _ => 0). reflexivity.
  - destruct (IH ix) as [pos ->]; [cbn in L; lia|]. exists (fun y => if String.eqb y x then i else pos y).
    cbn [map]. rewrite String.eqb_refl. f_equal. apply map_ext_in. intros y Y.
    destruct (String.eqb_spec y x) as [->|]; [contradiction|reflexivity].
Qed.

Lemma nth_error_index_map (D : list string) (pos : string -> Z) d j :
  index_of d D = Some j -> nth_error (map pos D) j = Some (pos d).
Proof. intros H. apply index_of_spec in H. rewrite nth_error_map, (proj1 H). reflexivity. Qed.

Lemma gather_nat_map {A} (l : list A) (D D' : list string) (f : string -> A) : l = map f D ->
  forall axes, traverse (fun d => index_of d D) D' = Some axes -> gather_nat l axes = Some (map f D').
Proof.
  intros ->. induction D' as [|x t IH]; intros axes; cbn [traverse]; [intros [= <-]; reflexivity|].
  destruct (index_of x D) as [i|] eqn:I; [|discriminate]. destruct (traverse _ t) as [r|]; [|discriminate].
  intros [= <-]. cbn [gather_nat map]. apply index_of_spec in I. rewrite nth_error_map, (proj1 I). cbn [option_map].
  rewrite (IH r eq_refl). reflexivity.
Qed.

Lemma map_seq_nth {A B} (D : list A) (g : A -> B) (f : nat -> option B) :
  (forall k d, nth_error D k = Some d -> f k = Some (g d)) ->
  traverse f (seq 0 (List.length D)) = Some (map g D).
Proof.
  intros H.
  assert (Q : forall L b, (forall k d, nth_error L k = Some d -> f (b + k)%nat = Some (g d)) ->
            traverse f (seq b (List.length L)) = Some (map g L)).
  { induction L as [|d L IH]; intros b Hb; [reflexivity|]. cbn [List.length seq traverse map].
    rewrite <- (Nat.add_0_r b) at 1. rewrite (Hb O d eq_refl). rewrite IH; [reflexivity|].
    intros k e E. replace (S b + k)%nat with (b + S k)%nat by lia. apply Hb. exact E. }
  apply (Q D O). exact H.
Qed.

(** Transposing to a permutation of the names keeps every element at its name. *)
Lemma nd_transpose_named {A} (a : nd A) D D' len : wf_nd a -> NoDup D -> Permutation D D' ->
  nd_shape a = map len D ->
  exists axes b, traverse (fun d => index_of d D) D' = Some axes /\ nd_transpose a axes = Some b /\
    wf_nd b /\ nd_shape b = map len D' /\
    forall pos, nd_get b (map pos D') = nd_get a (map pos D).
Proof.
  intros W ND P S. assert (ND' : NoDup D') by (eapply Permutation_NoDup; eauto).
  destruct (traverse_total (fun d => index_of d D) D') as [axes AX].
  { intros x X. apply index_of_In. eapply Permutation_in; [symmetry; exact P|exact X]. }
  exists axes. unfold nd_transpose. rewrite (gather_nat_map (nd_shape a) D D' len S axes AX).
  assert (NN : Forall (fun n => 0 <= n) (map len D')).
  { apply Forall_forall. intros x X. apply in_map_iff in X as (d & <- & J). destruct W as [W _]. rewrite S in W.
    rewrite Forall_forall in W. apply W. apply in_map. eapply Permutation_in; [symmetry; exact P|exact J]. }
  assert (G : forall pos : string -> Z, traverse (fun k => match find_nat k axes with
        | Some j => nth_error (map pos D') j | None => None end) (seq 0 (List.length (nd_shape a))) = Some (map pos D)).
  { intros pos. rewrite S, map_length. apply map_seq_nth. intros k d E. rewrite (find_axes D ND D' axes AX k d E).
    destruct (proj2 (index_of_In d D')) as [j J].
    - eapply Permutation_in; [exact P|eapply nth_error_In; eauto].
    - rewrite J. apply nth_error_index_map. exact J. }
  assert (BN : forall pos : string -> Z, inb (map len D') (map pos D') -> inb (map len D) (map pos D)).
  { intros pos H. assert (Q : forall d, In d D' -> 0 <= pos d < len d).
    { clear - H. induction D' as [|x t IH]; [intros d []|]. cbn in H. inversion H; subst. intros d [<-|J]; auto. }
    assert (Q' : forall d, In d D -> 0 <= pos d < len d) by (intros d J; apply Q; eapply Permutation_in; eauto).
    clear - Q'. induction D as [|x t IH]; cbn; constructor; [apply Q'; left; reflexivity|]. apply IH. intros; apply Q'; right; assumption. }
  match goal with |- context [nd_build _ ?f] => set (F := f) end.
  assert (FF : forall pos : string -> Z, F (map pos D') = nd_get a (map pos D)) by (intros pos; unfold F; rewrite G; reflexivity).
  destruct (nd_build_total (map len D') F NN) as [b B].
  { intros ix I. destruct (by_name D' ix ND') as [pos ->]; [rewrite (inb_length _ _ I), map_length; reflexivity|].
    rewrite FF. apply nd_get_total; [exact W|]. rewrite S. apply BN. exact I. }
  exists b. split; [exact AX|]. split; [exact B|]. destruct (nd_build_spec _ _ _ NN B) as (Sb & Wb & Gb).
  split; [exact Wb|]. split; [exact Sb|]. intros pos.
  destruct (nd_get a (map pos D)) as [x|] eqn:X.
  - pose proof (nd_get_inb _ _ _ X) as I. rewrite S in I.
    destruct (Gb (map pos D')) as (y & Y & ->).
    + assert (Q : forall d, In d D -> 0 <= pos d < len d).
      { clear - I. induction D as [|z t IH]; [intros d []|]. cbn in I. inversion I; subst. intros d [<-|J]; auto. }
      assert (Q' : forall d, In d D' -> 0 <= pos d < len d) by (intros d J; apply Q; eapply Permutation_in; [symmetry|]; eauto).
      clear - Q'. induction D' as [|z t IH]; cbn; constructor; [apply Q'; left; reflexivity|]. apply IH. intros; apply Q'; right; assumption.
    + rewrite FF in Y. congruence.
  - destruct (nd_get b (map pos D')) as [y|] eqn:Y; [exfalso|reflexivity].
    pose proof (nd_get_inb _ _ _ Y) as I. rewrite Sb in I. destruct (Gb _ I) as (z & Z & _). rewrite FF in Z. congruence.
Qed.

(** ** The order of dimensions asked for *)
Definition others (old named : list string) : list string := filter (fun d => negb (mem d named)) old.
Lemma named_in_mem d new : named_in d new = mem d (targ_names new).
Proof.
  induction new as [|t l IH]; [reflexivity|]. destruct t as [x|]; unfold named_in; cbn [existsb]; fold (named_in d l).
  - change (targ_names (TName x :: l)) with (x :: targ_names l). unfold mem. cbn [existsb]. fold (mem d (targ_names l)). rewrite IH. reflexivity.
  - exact IH.
Qed.
Lemma meant_others new old :
  meant new old = flat_map (fun t => match t with TName d => [d] | TDots => others old (targ_names new) end) new.
Proof.
  unfold meant, others. rewrite (filter_ext _ (fun d => negb (mem d (targ_names new)))); [reflexivity|].
  intros d. rewrite named_in_mem. reflexivity.
Qed.

Lemma dup_targ_spec new : dup_targ new = false <-> NoDup new.
Proof.
  induction new as [|x t IH]; cbn [dup_targ]; [split; [constructor|reflexivity]|].
  assert (E : existsb (targ_eqb x) t = true <-> In x t).
  { rewrite existsb_exists. split.
    - intros (y & Y & Q). destruct x, y; try discriminate; [apply String.eqb_eq in Q; subst|]; exact Y.
    - intros H. exists x. split; [exact H|]. destruct x; cbn; [apply String.eqb_refl|reflexivity]. }
  rewrite orb_false_iff, IH. split.
  - intros [A B]. constructor; [|exact B]. intros H. apply E in H. congruence.
  - intros H. inversion H; subst. split; [|assumption]. destruct (existsb (targ_eqb x) t); [|reflexivity]. exfalso. tauto.
Qed.

Lemma remove_one_spec x l : NoDup l ->
  remove_one x l = if mem x l then Some (filter (fun d => negb (String.eqb d x)) l) else None.
Proof.
  induction 1 as [|y t N ND IH]; [reflexivity|]. cbn [remove_one filter]. unfold mem. cbn [existsb]. fold (mem x t).
  destruct (String.eqb_spec x y) as [->|M].
  - rewrite String.eqb_refl. cbn [negb orb]. f_equal. symmetry. clear IH ND. induction t as [|z t IH]; [reflexivity|].
    cbn [filter]. destruct (String.eqb_spec z y) as [->|]; [exfalso; apply N; left; reflexivity|]. cbn [negb]. f_equal.
    apply IH. intros H. apply N. right; exact H.
  - cbn [orb]. rewrite IH. destruct (mem x t); [|reflexivity].
    destruct (String.eqb_spec y x) as [->|]; [congruence|reflexivity].
Qed.

Lemma filter_filter {A} (f g : A -> bool) l : filter f (filter g l) = filter (fun x => f x && g x) l.
Proof.
  induction l as [|x t IH]; [reflexivity|]. cbn [filter]. destruct (g x) eqn:G; cbn [filter].
  - rewrite andb_true_r. destruct (f x); rewrite IH; reflexivity.
  - rewrite andb_false_r. exact IH.
Qed.
Lemma NoDup_filter' {A} (f : A -> bool) l : NoDup l -> NoDup (filter f l).
Proof.
  induction 1 as [|x t N ND IH]; cbn; [constructor|]. destruct (f x); [constructor|]; auto.
  intros H. apply filter_In in H. tauto.
Qed.

Lemma remove_all names : forall old, NoDup old -> NoDup names ->
  fold_left (fun acc x => match acc with Some l => remove_one x l | None => None end) names (Some old) =
  if subset names old then Some (others old names) else None.
Proof.
  assert (NoneStay : forall l, fold_left (fun acc x => match acc with Some l => remove_one x l | None => None end) l None = @None (list string))
    by (induction l; auto).
  induction names as [|x t IH]; intros old ND NN.
  - cbn. f_equal. unfold others. induction ND; cbn; [reflexivity|]. f_equal. assumption.
  - inversion NN as [|? ? Nx NN']; subst. cbn [fold_left]. rewrite remove_one_spec by exact ND. unfold subset. cbn [forallb].
    destruct (mem x old) eqn:M; [|rewrite NoneStay; reflexivity]. cbn [andb]. fold (subset t old).
    rewrite IH by (auto; apply NoDup_filter'; exact ND).
    assert (subset t (filter (fun d => negb (String.eqb d x)) old) = subset t old) as ->.
    { apply eq_iff_eq_true. rewrite !subset_spec. split; intros H y Y; specialize (H y Y).
      - apply filter_In in H. tauto.
      - apply filter_In. split; [exact H|]. destruct (String.eqb_spec y x) as [->|]; [contradiction|reflexivity]. }
    destruct (subset t old); [|reflexivity]. f_equal. unfold others. rewrite filter_filter. apply filter_ext. intros d.
    unfold mem. cbn [existsb]. rewrite negb_orb. apply andb_comm.
Qed.

Lemma targ_names_app a b : targ_names (a ++ b) = targ_names a ++ targ_names b.
Proof. unfold targ_names. rewrite map_app, concat_app. reflexivity. Qed.
Lemma in_targ_names d new : In d (targ_names new) <-> In (TName d) new.
Proof.
  unfold targ_names. rewrite in_concat. split.
  - intros (l & L & D). apply in_map_iff in L as (t & <- & T). destruct t as [e|]; [|destruct D]. destruct D as [->|[]]. exact T.
  - intros H. exists [d]. split; [|left; reflexivity]. apply in_map_iff. exists (TName d). auto.
Qed.
Lemma targ_names_NoDup new : NoDup new -> NoDup (targ_names new).
Proof.
  induction 1 as [|t l N ND IH]; [constructor|]. destruct t as [d|]; [|exact IH].
  change (targ_names (TName d :: l)) with (d :: targ_names l). constructor; [|exact IH]. rewrite in_targ_names. exact N.
Qed.

Lemma meant_NoDup new old : NoDup new -> NoDup old -> NoDup (meant new old).
Proof.
  intros N O. rewrite meant_others. set (r := others old (targ_names new)).
  assert (R : forall d, In d r -> ~ In (TName d) new).
  { intros d H J. unfold r, others in H. apply filter_In in H as [_ H]. apply in_targ_names in J. apply mem_In' in J. rewrite J in H. discriminate. }
  assert (RN : NoDup r) by (apply NoDup_filter'; exact O). clearbody r. revert R.
  induction N as [|t l Nt N IH]; intros R; cbn [flat_map]; [constructor|].
  assert (R' : forall d, In d r -> ~ In (TName d) l) by (intros d D J; apply (R d D); right; exact J).
  specialize (IH R'). destruct t as [d|]; cbn [app].
  - constructor; [|exact IH]. intros J. apply in_flat_map in J as (t & T & J). destruct t as [e|].
    + destruct J as [->|[]]. contradiction.
    + apply (R d J). left; reflexivity.
  - assert (Q : forall a b : list string, NoDup a -> NoDup b -> (forall x, In x a -> ~ In x b) -> NoDup (a ++ b)).
    { induction a as [|y a IHa]; intros b Na Nb H; [exact Nb|]. inversion Na; subst. cbn. constructor.
      - rewrite in_app_iff. intros [J|J]; [contradiction|]. apply (H y); [left; reflexivity|exact J].
      - apply IHa; auto. intros x X. apply H. right; exact X. }
    apply Q; auto. intros x X J. apply in_flat_map in J as (t & T & J). destruct t as [e|].
    + destruct J as [->|[]]. apply (R' x X T).
    + contradiction.
Qed.

Lemma transpose_dims_ok new old : NoDup old -> NoDup new -> (forall d, In (TName d) new -> In d old) ->
  (In TDots new \/ forall d, In d old -> In (TName d) new) ->
  transpose_dims new old = Ok (meant new old) /\ Permutation old (meant new old).
Proof.
  intros NO NN H1 H2. unfold transpose_dims. rewrite (proj2 (dup_targ_spec new) NN).
  rewrite remove_all by (auto; apply targ_names_NoDup; exact NN).
  assert (subset (targ_names new) old = true) as ->.
  { apply subset_spec. intros d D. apply H1, in_targ_names, D. }
  rewrite <- flat_map_concat_map, <- meant_others.
  assert (A : forall d, In d (meant new old) <-> In d old).
  { intros d. rewrite meant_others, in_flat_map. split.
    - intros (t & T & J). destruct t as [e|]; [destruct J as [->|[]]; auto|]. apply filter_In in J. tauto.
    - intros J. destruct (in_dec string_dec d (targ_names new)) as [I|I].
      + exists (TName d). split; [apply in_targ_names; exact I|left; reflexivity].
      + destruct H2 as [H2|H2]; [|exfalso; apply I, in_targ_names, H2, J].
        exists TDots. split; [exact H2|]. apply filter_In. split; [exact J|]. apply negb_true_iff, mem_false, I. }
  assert (subset (meant new old) old && subset old (meant new old) = true) as ->.
  { apply andb_true_iff. rewrite !subset_spec. split; intros x X; apply A; exact X. }
  split; [reflexivity|]. apply NoDup_Permutation; auto.
  - apply meant_NoDup; auto.
  - intros x. symmetry. apply A.
Qed.
Lemma transpose_dims_bad new old : NoDup old ->
  ~ NoDup new \/ (NoDup new /\ (forall d, In (TName d) new -> In d old) /\ ~ In TDots new /\ exists d, In d old /\ ~ In (TName d) new) ->
  transpose_dims new old = Err ParameterError.
Proof.
  intros NO [H|(NN & H1 & H2 & d & D & H3)]; unfold transpose_dims.
  - destruct (dup_targ new) eqn:E; [reflexivity|]. apply dup_targ_spec in E. contradiction.
  - rewrite (proj2 (dup_targ_spec new) NN). rewrite remove_all by (auto; apply targ_names_NoDup; exact NN).
    assert (subset (targ_names new) old = true) as ->.
    { apply subset_spec. intros x X. apply H1, in_targ_names, X. }
    rewrite <- flat_map_concat_map, <- meant_others.
    destruct (subset (meant new old) old && subset old (meant new old)) eqn:E; [exfalso|reflexivity].
    apply andb_true_iff in E as [_ E]. rewrite subset_spec in E. specialize (E d D). unfold meant in E.
    apply in_flat_map in E as (t & T & J). destruct t as [e|]; [destruct J as [->|[]]|]; contradiction.
Qed.

(** ** Transpose *)
Lemma permuted_wf cm dims : wf_cm cm -> Permutation (cm_dims cm) dims -> wf_cm (mkCm dims (cm_coords cm) (cm_dmap cm)).
Proof.
  intros W P. pose proof (fun d => Permutation_in d (Permutation_sym P)) as I1. pose proof (fun d => Permutation_in d P) as I2.
  destruct W as [[C1 C2] W2 W3 W4 W5 W6 W7]. split; cbn [cm_dims cm_coords cm_dmap]; auto.
  - split; cbn [cm_dims cm_coords cm_dmap].
    + intros d D. apply C1. apply I1, D.
    + intros n ds E. destruct (C2 n ds E) as (m & M & H1 & H2). exists m. split; [exact M|]. split; [auto|exact H2].
  - eapply Permutation_NoDup; eauto.
Qed.

Lemma lens cm s : wf_cm cm -> Forall2 (dim_len cm) (cm_dims cm) s ->
  exists len, s = map len (cm_dims cm) /\ forall d, In d (cm_dims cm) -> dim_len cm d (len d).
Proof.
  intros _ F. set (len := fun d => match assoc d (cm_coords cm) with Some (M1 c) => c_len c | _ => 0 end).
  assert (L : forall d n, dim_len cm d n -> len d = n) by (intros d n (c & E & <-); unfold len; rewrite E; reflexivity).
  exists len. split.
  - induction F as [|d n ds s H F IH]; cbn; [reflexivity|]. rewrite (L d n H). f_equal. exact IH.
  - intros d D. induction F as [|e n ds s H F IH]; [destruct D|]. destruct D as [<-|D]; [rewrite (L _ _ H); exact H|apply IH, D].
Qed.

Lemma pt_transpose_ok {A} (p : patch A) new : wf_patch p -> NoDup new ->
  (forall d, In (TName d) new -> In d (cm_dims (p_cm p))) ->
  (new = [] \/ In TDots new \/ forall d, In d (cm_dims (p_cm p)) -> In (TName d) new) ->
  exists p', pt_transpose p new = Ok p' /\ wf_patch p' /\
    cm_dims (p_cm p') = wanted new (cm_dims (p_cm p)) /\ Permutation (cm_dims (p_cm p)) (cm_dims (p_cm p')) /\
    cm_coords (p_cm p') = cm_coords (p_cm p) /\ cm_dmap (p_cm p') = cm_dmap (p_cm p) /\
    forall pos, data_at p' pos = data_at p pos.
Proof.
  intros WP NN H1 H2. destruct p as [cm a]. cbn [p_cm p_data] in *. pose proof (wp_cm _ WP) as W. cbn [p_cm] in W.
  unfold pt_transpose. cbn [p_cm p_data].
  assert (subset (targ_names new) (cm_dims cm) = true) as ->.
  { apply subset_spec. intros d D. apply H1, in_targ_names, D. }
  cbn [negb]. unfold cm_transpose.
  set (new' := match new with [] => map TName (rev (cm_dims cm)) | _ => new end).
  assert (TN : forall l, targ_names (map TName l) = l) by (induction l as [|x t IH]; cbn; [reflexivity|f_equal; exact IH]).
  assert (ML : forall l o, meant (map TName l) o = l).
  { intros l o. rewrite meant_others, TN. generalize (others o l) as r. intros r. induction l as [|x t IH]; cbn; [reflexivity|]. f_equal. exact IH. }
  assert (Q : transpose_dims new' (cm_dims cm) = Ok (wanted new (cm_dims cm)) /\ Permutation (cm_dims cm) (wanted new (cm_dims cm))).
  { destruct new as [|t l].
    - unfold new', wanted. rewrite <- (ML (rev (cm_dims cm)) (cm_dims cm)). rewrite (ML _ (cm_dims cm)).
      rewrite <- (ML (rev (cm_dims cm)) (cm_dims cm)) at 2 3. apply transpose_dims_ok; [apply (wf_dims _ W)| | |].
      + apply FinFun.Injective_map_NoDup; [intros x y [= ->]; reflexivity|]. apply NoDup_rev, (wf_dims _ W).
      + intros d D. apply in_map_iff in D as (x & [= ->] & X). apply in_rev, X.
      + right. intros d D. apply in_map. rewrite <- in_rev. exact D.
    - unfold new', wanted. apply transpose_dims_ok; auto; [apply (wf_dims _ W)|]. destruct H2 as [[=]|H2]; exact H2. }
  destruct Q as [-> P]. cbn [bind]. set (dims := wanted new (cm_dims cm)) in *. clearbody dims. clear H2 new' TN ML.
  destruct (strs_eqb dims (cm_dims cm)) eqn:E.
  - apply strs_eqb_eq in E. subst dims. cbn [bind]. exists (mkPatch cm a). cbn [p_cm]. split; [reflexivity|]. split; [exact WP|]. repeat (split; [reflexivity || exact P|]). reflexivity.
  - pose proof (permuted_wf cm dims W P) as W'. rewrite (build_wf _ _ _ W'). cbn [bind cm_dims].
    destruct (lens cm (nd_shape a) W (wp_shape _ WP)) as (len & SH & LN).
    destruct (nd_transpose_named a (cm_dims cm) dims len (wp_nd _ WP) (wf_dims _ W) P SH) as (axes & b & -> & -> & Wb & Sb & G).
    assert (WP' : wf_patch (mkPatch (mkCm dims (cm_coords cm) (cm_dmap cm)) b)).
    { split; cbn [p_cm p_data cm_dims].
      - exact W'.
      - exact Wb.
      - intros ->. apply Permutation_sym, Permutation_nil in P. apply (wp_some _ WP). exact P.
      - rewrite Sb. assert (Q : forall d, In d dims -> dim_len cm d (len d)) by (intros d D; apply LN; eapply Permutation_in; [symmetry|]; eauto).
        clear - Q. induction dims as [|d t IH]; cbn; constructor.
        + destruct (Q d) as (c & C & L); [left; reflexivity|]. exists c. auto.
        + eapply Forall2_impl; [|apply IH; intros; apply Q; right; assumption]. intros x y (c & C & L). exists c. auto. }
    exists (mkPatch (mkCm dims (cm_coords cm) (cm_dmap cm)) b). cbn [p_cm p_data cm_dims cm_coords cm_dmap].
    split; [apply new_patch_ok; apply WP'|]. split; [exact WP'|]. repeat (split; [reflexivity || exact P|]).
    intros pos. unfold data_at. cbn [p_cm p_data cm_dims]. apply G.
Qed.

Lemma pt_transpose_bad {A} (p : patch A) new : wf_patch p -> new <> [] ->
  (exists d, In (TName d) new /\ ~ In d (cm_dims (p_cm p))) \/ ~ NoDup new \/
  (~ In TDots new /\ exists d, In d (cm_dims (p_cm p)) /\ ~ In (TName d) new) ->
  pt_transpose p new = Err ParameterError.
Proof.
  intros WP NE H. unfold pt_transpose. destruct (subset (targ_names new) (cm_dims (p_cm p))) eqn:S; cbn [negb]; [|reflexivity].
  rewrite subset_spec in S. assert (H1 : forall d, In (TName d) new -> In d (cm_dims (p_cm p))) by (intros d D; apply S, in_targ_names, D).
  unfold cm_transpose. destruct new as [|t l]; [congruence|].
  rewrite transpose_dims_bad; [reflexivity|apply (wf_dims _ (wp_cm _ WP))|].
  destruct H as [(d & D & N)|[H|H]]; [exfalso; auto|left; exact H|].
  destruct (dup_targ (t :: l)) eqn:E; [left|right; split; [apply dup_targ_spec, E|split; [exact H1|exact H]]].
  rewrite <- dup_targ_spec. congruence.
Qed.

(** Transposing back. *)
Lemma pt_transpose_back {A} (p p' : patch A) new : wf_patch p -> wf_patch p' ->
  pt_transpose p new = Ok p' ->
  cm_coords (p_cm p') = cm_coords (p_cm p) -> cm_dmap (p_cm p') = cm_dmap (p_cm p) ->
  Permutation (cm_dims (p_cm p)) (cm_dims (p_cm p')) -> (forall pos, data_at p' pos = data_at p pos) ->
  pt_transpose p' (map TName (cm_dims (p_cm p))) = Ok p.
Proof.
  intros WP WP' _ EC ED P G.
  destruct (pt_transpose_ok p' (map TName (cm_dims (p_cm p))) WP') as (q & Eq & Wq & Dq & _ & Cq & Mq & Gq).
  - apply FinFun.Injective_map_NoDup; [intros x y [= ->]; reflexivity|]. apply (wf_dims _ (wp_cm _ WP)).
  - intros d D. apply in_map_iff in D as (x & [= ->] & X). eapply Permutation_in; eauto.
  - right. right. intros d D. apply in_map. eapply Permutation_in; [symmetry|]; eauto.
  - rewrite Eq. f_equal.
    assert (DD : cm_dims (p_cm q) = cm_dims (p_cm p)).
    { rewrite Dq. unfold wanted. pose proof (wp_some _ WP) as NE. destruct (cm_dims (p_cm p)) as [|x t]; [congruence|].
      cbn [map]. change (TName x :: map TName t) with (map TName (x :: t)). generalize (x :: t). intros l.
      assert (TN : forall l, targ_names (map TName l) = l) by (induction l0 as [|y u IH]; cbn; [reflexivity|f_equal; exact IH]).
      rewrite meant_others, TN. generalize (others (cm_dims (p_cm p')) l) as r. intros r. induction l as [|y u IH]; cbn; [reflexivity|]. f_equal. exact IH. }
    clear Dq.     destruct p as [[dims cs dm] a], q as [[dims' cs' dm'] b]. unfold data_at in *. cbn [p_cm p_data cm_dims cm_coords cm_dmap] in *. rewrite DD in *. clear DD.
    assert (cs' = cs) as -> by congruence. assert (dm' = dm) as -> by congruence. f_equal.
    destruct (lens _ _ (wp_cm _ WP) (wp_shape _ WP)) as (len & SH & LN). cbn [p_data p_cm cm_dims] in SH.
    destruct (lens _ _ (wp_cm _ Wq) (wp_shape _ Wq)) as (len' & SH' & LN'). cbn [p_data p_cm cm_dims] in SH'.
    symmetry. apply nd_ext; [apply (wp_nd _ WP)|apply (wp_nd _ Wq)| |].
    + rewrite SH, SH'. apply map_ext_in. intros d D. destruct (LN d D) as (c & C & <-). destruct (LN' d D) as (c' & C' & <-).
      cbn [p_cm cm_coords] in *. congruence.
    + intros ix I. destruct (by_name dims ix) as [pos ->].
      * apply (wf_dims _ (wp_cm _ WP)).
      * rewrite (inb_length _ _ I), SH, map_length. reflexivity.
      * rewrite Gq, G. reflexivity.
Qed.

(** ** Drop *)
Lemma nd_picked_full_eq {A} (a b : nd A) : wf_nd a -> nd_picked a b (full (nd_shape a)) -> a = b.
Proof.
  intros W (Wb & Sb & _ & G). rewrite map_zlen_full in Sb, G by apply W.
  apply nd_ext; auto. intros ix I. destruct (G ix I) as (jx & x & J & X & Y).
  rewrite (pick_ix_full _ _ I) in J. injection J as <-. congruence.
Qed.

Lemma pt_drop_ok {A} (p : patch A) names : wf_patch p -> (forall d, In d names -> ~ In d (cm_dims (p_cm p))) ->
  exists p', pt_drop_coords p names = Ok p' /\ wf_patch p' /\ p_data p' = p_data p /\
    cm_dims (p_cm p') = cm_dims (p_cm p) /\
    forall n, (In n names -> assoc n (cm_coords (p_cm p')) = None /\ assoc n (cm_dmap (p_cm p')) = None) /\
              (~ In n names -> assoc n (cm_coords (p_cm p')) = assoc n (cm_coords (p_cm p)) /\
                               assoc n (cm_dmap (p_cm p')) = assoc n (cm_dmap (p_cm p))).
Proof.
  intros WP H. destruct p as [cm a]. cbn [p_cm p_data] in *. pose proof (wp_cm _ WP) as W. cbn [p_cm] in W.
  unfold pt_drop_coords. cbn [p_cm p_data].
  destruct (meets_any names (cm_dims cm)) eqn:M.
  { apply meets_any_spec in M as (x & X & Y). destruct (H x X Y). }
  destruct (drop_coords_spec cm names W) as (cm' & -> & W' & D' & C1 & C2). cbn [bind fst snd].
  assert (NM : forall d, In d (cm_dims cm) -> mem d names = false).
  { intros d D. apply mem_false. intros J. exact (H d J D). }
  assert (D2 : cm_dims cm' = cm_dims cm).
  { rewrite D'. revert NM. generalize (cm_dims cm). induction l as [|x t IH]; intros NM; cbn; [reflexivity|].
    rewrite NM by (left; reflexivity). cbn. f_equal. apply IH. intros; apply NM; right; assumption. }
  assert (DB : forall n, droppedb cm names n = mem n names).
  { intros n. apply eq_iff_eq_true. rewrite droppedb_spec, mem_In'. split; [|left; assumption].
    intros [J|(ds & d & E & J1 & J2)]; [exact J|exfalso]. destruct (con_coord _ (wf_con _ W) n ds E) as (m & _ & K & _).
    exact (H d J2 (K d J1)). }
  destruct (apply_indexers_spec a (drop_ix cm names) (full (nd_shape a)) (wp_nd _ WP)) as (b & Eb & Pb).
  - pose proof (wp_shape _ WP) as F. cbn [p_cm p_data] in F. unfold drop_ix. clear - F W NM. revert NM. unfold full.
    induction F as [|d n ds s (c & C & L) F IH]; intros NM; cbn [map combine]; constructor.
    + cbn [fst snd]. rewrite NM by (left; reflexivity). apply full_positions. rewrite <- L. apply c_len_nonneg, (wf_vals _ W _ _ C).
    + apply IH. intros; apply NM; right; assumption.
  - unfold drop_ix. rewrite map_length. apply (Forall2_length _ _ _ (wp_shape _ WP)).
  - unfold full. rewrite map_length. reflexivity.
  - rewrite Eb. pose proof (nd_picked_full_eq a b (wp_nd _ WP) Pb) as <-.
    assert (WP' : wf_patch (mkPatch cm' a)).
    { split; cbn [p_cm p_data]; [exact W'|apply (wp_nd _ WP)|rewrite D2; apply (wp_some _ WP)|].
      rewrite D2. eapply Forall2_impl_in; [|apply (wp_shape _ WP)]. cbn [p_cm]. intros d n D (c & C & L). exists c.
      rewrite C1, DB, NM by exact D. auto. }
    exists (mkPatch cm' a). cbn [p_cm p_data]. split; [apply new_patch_ok; apply WP'|].
    split; [exact WP'|]. split; [reflexivity|]. split; [exact D2|]. intros n. rewrite C1, C2, DB. split; intros J.
    + apply mem_In' in J. rewrite J. auto.
    + apply mem_false in J. rewrite J. auto.
Qed.
Lemma pt_drop_bad {A} (p : patch A) names : (exists d, In d names /\ In d (cm_dims (p_cm p))) ->
  pt_drop_coords p names = Err ParameterError.
Proof.
  intros H. unfold pt_drop_coords. apply meets_any_spec in H. rewrite H. reflexivity.
Qed.
