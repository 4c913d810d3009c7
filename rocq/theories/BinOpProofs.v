(** Lemmas behind BinOpProps.v: broadcasting, widening a patch, applying an
    alignment. *)
From Verif Require Import Base BaseFacts CoordModel CoordSpec CoordProofs CoordProofs2 CoordProofs3
  CoordProofs4 CoordProofs5 NdModel NdSpec NdProofs NdProofs2 NdProofs3 FrameModel FrameProofs5 ChunkModel CmModel CmSpec
  CmProofs CmProofs2 CmProofs3 CmProofs10 CmProofs12 CmProofs13 CmProofs15 BinOpModel BinOpSpec.
From Coq Require Import Strings.String ZifyBool Sorting.Permutation Sorting.Sorted.
Ltac Zify.zify_post_hook ::= Z.div_mod_to_equations.
Local Open Scope Z_scope.
Local Open Scope list_scope.

(** ** Broadcasting arrays of equally many axes *)
Lemma bcast_len_spec a b n : bcast_len a b = Some n -> (a = b /\ n = a) \/ (a = 1 /\ n = b) \/ (b = 1 /\ n = a).
Proof.
  unfold bcast_len. destruct (Z.eqb_spec a b); [intros [= <-]; auto|].
  destruct (Z.eqb_spec a 1); [intros [= <-]; auto|]. destruct (Z.eqb_spec b 1); [intros [= <-]; auto|discriminate].
Qed.
Lemma bcast_rev_map {D} (l1 l2 l : D -> Z) ds :
  (forall d, In d ds -> bcast_len (l1 d) (l2 d) = Some (l d)) ->
  bcast_rev (map l1 ds) (map l2 ds) = Some (map l ds).
Proof.
  induction ds as [|d t IH]; intros H; [reflexivity|]. cbn [map bcast_rev].
  rewrite (H d (or_introl eq_refl)), IH; [reflexivity|]. intros x X. apply H. right. exact X.
Qed.
Lemma broadcast_shapes_map {D} (l1 l2 l : D -> Z) ds :
  (forall d, In d ds -> bcast_len (l1 d) (l2 d) = Some (l d)) ->
  broadcast_shapes (map l1 ds) (map l2 ds) = Some (map l ds).
Proof.
  intros H. unfold broadcast_shapes. rewrite <- !map_rev, (bcast_rev_map l1 l2 l).
  - cbn. rewrite map_rev, rev_involutive. reflexivity.
  - intros d D1. apply H, in_rev, D1.
Qed.
Definition squash (l pos : string -> Z) (d : string) : Z := if l d =? 1 then 0 else pos d.
Lemma bcast_ix_map (l pos : string -> Z) ds : bcast_ix (map l ds) (map pos ds) = map (squash l pos) ds.
Proof.
  unfold bcast_ix. rewrite <- !map_rev.
  assert (H : forall k, bcast_ix_rev (map l k) (map pos k) = map (squash l pos) k).
  { induction k as [|d t IH]; [reflexivity|]. cbn [map bcast_ix_rev]. rewrite IH. reflexivity. }
  rewrite H, map_rev, rev_involutive. reflexivity.
Qed.
Lemma inb_map (l pos : string -> Z) ds : inb (map l ds) (map pos ds) <-> forall d, In d ds -> 0 <= pos d < l d.
Proof.
  unfold inb. induction ds as [|d t IH]; cbn [map]; split; intros H.
  - intros d [].
  - constructor.
  - inversion H; subst. intros x [<-|X]; [assumption|]. apply IH; assumption.
  - constructor; [apply H; left; reflexivity|]. apply IH. intros x X. apply H. right. exact X.
Qed.

Lemma nd_map2_named {A B C} (op : A -> B -> C) (a : nd A) (b : nd B) ds (l1 l2 l : string -> Z) :
  NoDup ds -> wf_nd a -> wf_nd b -> nd_shape a = map l1 ds -> nd_shape b = map l2 ds ->
  (forall d, In d ds -> 0 <= l1 d /\ 0 <= l2 d /\ bcast_len (l1 d) (l2 d) = Some (l d)) ->
  exists c, nd_map2 op a b = Ok c /\ wf_nd c /\ nd_shape c = map l ds /\
    forall pos, (forall d, In d ds -> 0 <= pos d < l d) ->
      exists x y, nd_get a (map (squash l1 pos) ds) = Some x /\ nd_get b (map (squash l2 pos) ds) = Some y /\
        nd_get c (map pos ds) = Some (op x y).
Proof.
  intros ND Wa Wb Sa Sb H. unfold nd_map2. rewrite Sa, Sb, (broadcast_shapes_map l1 l2 l) by (intros; apply H; assumption).
  assert (NN : Forall (fun n => 0 <= n) (map l ds)).
  { apply Forall_forall. intros n J. apply in_map_iff in J as (d & <- & J). destruct (H d J) as (H1 & H2 & H3).
    apply bcast_len_spec in H3. lia. }
  assert (G : forall pos, (forall d, In d ds -> 0 <= pos d < l d) ->
    exists x y, nd_get a (map (squash l1 pos) ds) = Some x /\ nd_get b (map (squash l2 pos) ds) = Some y).
  { intros pos P. destruct (nd_get_total a (map (squash l1 pos) ds) Wa) as [x X].
    { rewrite Sa. apply inb_map. intros d D. specialize (P d D). destruct (H d D) as (H1 & H2 & H3). unfold squash.
      apply bcast_len_spec in H3. destruct (Z.eqb_spec (l1 d) 1); lia. }
    destruct (nd_get_total b (map (squash l2 pos) ds) Wb) as [y Y].
    { rewrite Sb. apply inb_map. intros d D. specialize (P d D). destruct (H d D) as (H1 & H2 & H3). unfold squash.
      apply bcast_len_spec in H3. destruct (Z.eqb_spec (l2 d) 1); lia. }
    eauto. }
  set (f := fun ix => match nd_get a (bcast_ix (map l1 ds) ix), nd_get b (bcast_ix (map l2 ds) ix) with
                      | Some x, Some y => Some (op x y) | _, _ => None end).
  destruct (nd_build_total (map l ds) f NN) as [c E].
  { intros ix I. destruct (by_name ds ix ND) as [pos ->]; [rewrite (inb_length _ _ I), map_length; reflexivity|].
    rewrite inb_map in I. destruct (G pos I) as (x & y & X & Y). exists (op x y). unfold f. rewrite !bcast_ix_map, X, Y. reflexivity. }
  rewrite E. exists c. split; [reflexivity|]. destruct (nd_build_spec _ _ _ NN E) as (S & W & V).
  split; [exact W|]. split; [exact S|]. intros pos P. destruct (G pos P) as (x & y & X & Y). exists x, y.
  split; [exact X|]. split; [exact Y|]. destruct (V (map pos ds)) as (z & F & ->); [apply inb_map, P|]. rewrite <- F. unfold f. rewrite !bcast_ix_map, X, Y. reflexivity.
Qed.

(** ** limit keywords *)
Lemma limit_key_sub a b s : a <> [] -> (forall d, In d a -> In d b) -> limit_key b s = false -> limit_key a s = false.
Proof.
  intros NE S H. unfold limit_key in *. apply orb_false_iff in H as [H _]. apply orb_false_iff. split.
  - destruct (existsb _ a) eqn:E; [|reflexivity]. apply existsb_exists in E as (d & D & E).
    rewrite <- H. symmetry. apply existsb_exists. exists d. split; [apply S, D|exact E].
  - destruct a; [congruence|]. reflexivity.
Qed.

(** ** Widening *)
Lemma dedup_strs_gen l : forall acc, NoDup acc ->
  NoDup (fold_left (fun acc x => if mem x acc then acc else acc ++ [x]) l acc) /\
  (NoDup l -> fold_left (fun acc x => if mem x acc then acc else acc ++ [x]) l acc =
     acc ++ filter (fun x => negb (mem x acc)) l).
Proof.
  induction l as [|x t IH]; intros acc ND; cbn [fold_left filter].
  - split; [exact ND|]. rewrite app_nil_r. reflexivity.
  - destruct (mem x acc) eqn:M; cbn [negb].
    + destruct (IH acc ND) as [I1 I2]. split; [exact I1|]. intros N. inversion N; subst. apply I2. assumption.
    + assert (ND' : NoDup (acc ++ [x])).
      { apply (Permutation_NoDup (l := x :: acc)); [apply Permutation_cons_append|]. constructor; [|exact ND].
        intros J. apply mem_In' in J. congruence. }
      destruct (IH _ ND') as [I1 I2]. split; [exact I1|]. intros N. inversion N; subst. rewrite I2 by assumption.
      rewrite <- app_assoc. cbn [app]. f_equal. f_equal. apply filter_ext_in. intros y Y.
      f_equal. apply Bool.eq_true_iff_eq. rewrite !mem_In'. rewrite in_app_iff. cbn. split; [|tauto].
      intros [J|[->|[]]]; [exact J|contradiction].
Qed.
Lemma merge_tuples_all a b : NoDup a -> NoDup b -> merge_tuples a b = all_dims a b.
Proof.
  intros Na Nb. unfold merge_tuples, dedup_strs, all_dims. rewrite fold_left_app.
  destruct (dedup_strs_gen a [] (NoDup_nil _)) as [_ E]. rewrite E by exact Na. cbn [app].
  replace (filter _ a) with a.
  - apply (dedup_strs_gen b a Na). exact Nb.
  - clear. induction a as [|x t IH]; cbn; [reflexivity|]. f_equal. exact IH.
Qed.
Lemma in_all_dims d a b : In d (all_dims a b) <-> In d a \/ In d b.
Proof.
  unfold all_dims. rewrite in_app_iff, filter_In, negb_true_iff. split; [tauto|].
  intros [J|J]; [tauto|]. destruct (mem d a) eqn:M; [apply mem_In' in M; tauto|tauto].
Qed.
Lemma all_dims_NoDup a b : NoDup a -> NoDup b -> NoDup (all_dims a b).
Proof.
  intros Na Nb. rewrite <- merge_tuples_all by assumption. unfold merge_tuples, dedup_strs.
  apply dedup_strs_gen. constructor.
Qed.

(** A coordinate that has perhaps been inferred anew. *)
Definition again (m m' : mcoord) : Prop := m' = m \/ m' = recf m.

Lemma widen_ok {A} (p : patch A) dims : wf_patch p -> NoDup dims ->
  (forall d, In d (cm_dims (p_cm p)) -> In d dims) ->
  (forall d, In d dims -> ~ In d (cm_dims (p_cm p)) -> ~ In d (map fst (cm_coords (p_cm p)))) ->
  (forall d, In d dims -> limit_key (cm_dims (p_cm p)) d = false) ->
  exists p', widen p dims = Ok p' /\ wf_patch p' /\ cm_dims (p_cm p') = dims /\
    (forall n m, assoc n (cm_coords (p_cm p)) = Some m ->
       assoc n (cm_dmap (p_cm p')) = assoc n (cm_dmap (p_cm p)) /\
       exists m', assoc n (cm_coords (p_cm p')) = Some m' /\ again m m') /\
    (forall n, assoc n (cm_coords (p_cm p)) = None -> ~ In n dims -> assoc n (cm_coords (p_cm p')) = None) /\
    (forall d, In d dims -> ~ In d (cm_dims (p_cm p)) -> assoc d (cm_coords (p_cm p')) = Some (M1 (CPart 1))) /\
    (forall pos, (forall d, In d dims -> ~ In d (cm_dims (p_cm p)) -> pos d = 0) -> data_at p' pos = data_at p pos).
Proof.
  intros W ND S H1 H2. unfold widen.
  set (old := cm_dims (p_cm p)) in *.
  set (new := filter (fun e : string * cval => negb (mem (fst e) old)) (map (fun d => (d, VLen 1)) dims)).
  assert (Mn : map fst new = filter (fun d => negb (mem d old)) dims).
  { unfold new. clear. induction dims as [|d t IH]; cbn; [reflexivity|]. destruct (mem d old); cbn; [exact IH|]. f_equal. exact IH. }
  assert (In_new : forall d, In d (map fst new) <-> In d dims /\ ~ In d old).
  { intros d. rewrite Mn, filter_In, negb_true_iff. destruct (mem d old) eqn:M.
    - apply mem_In' in M. split; [intros [_ J]; discriminate|tauto].
    - split; [intros [J _]; split; [exact J|]|tauto]. intros J'. apply mem_In' in J'. congruence. }
  assert (NDn : NoDup (map fst new)) by (rewrite Mn; apply NoDup_filter', ND).
  assert (TN : forall l, targ_names (map TName l) = l) by (induction l as [|x t IH]; cbn; [reflexivity|f_equal; exact IH]).
  assert (NE : dims <> []).
  { intros ->. pose proof (wp_some _ W) as Q. fold old in Q. destruct old as [|d t]; [congruence|]. destruct (S d). left; reflexivity. }
  assert (TR : forall q : patch A, wf_patch q -> (forall d, In d dims <-> In d (cm_dims (p_cm q))) ->
    exists p', pt_transpose q (map TName dims) = Ok p' /\ wf_patch p' /\ cm_dims (p_cm p') = dims /\
      cm_coords (p_cm p') = cm_coords (p_cm q) /\ cm_dmap (p_cm p') = cm_dmap (p_cm q) /\
      forall pos, data_at p' pos = data_at q pos).
  { intros q Wq D. destruct (pt_transpose_ok q (map TName dims) Wq) as (p' & E & W' & D' & _ & X).
    - apply FinFun.Injective_map_NoDup; [intros x y [= ->]; reflexivity|]. exact ND.
    - intros d J. apply in_map_iff in J as (x & [= ->] & J). apply D, J.
    - right. right. intros d J. apply in_map. apply D, J.
    - exists p'. split; [exact E|]. split; [exact W'|]. split; [|exact X]. rewrite D'. unfold wanted.
      destruct dims as [|x t]; [congruence|]. cbn [map]. change (TName x :: map TName t) with (map TName (x :: t)).
      rewrite meant_others, TN. clear. generalize (others (cm_dims (p_cm q)) (x :: t)) as r. intros r. induction (x :: t) as [|y u IH]; cbn; [reflexivity|]. f_equal. exact IH. }
  destruct (list_eq_dec string_dec (map fst new) []) as [Z|Z].
  - assert (pt_append_dims p (map (fun d => (d, VLen 1)) dims) = Ok p) as ->.
    { unfold pt_append_dims. fold old. fold new. destruct new; [reflexivity|discriminate]. }
    cbn [bind]. assert (IO : forall d, In d dims -> In d old).
    { intros d D. destruct (in_dec string_dec d old) as [J|J]; [exact J|].
      exfalso. assert (In d (map fst new)) as X by (apply In_new; auto). rewrite Z in X. destruct X. }
    destruct (TR p W) as (p' & E & W' & D' & C' & M' & G'); [intros d; split; [apply IO|apply S]|].
    exists p'. split; [exact E|]. split; [exact W'|]. split; [exact D'|]. split; [|split; [|split]].
    + intros n m Q. rewrite M', C'. split; [reflexivity|]. exists m. split; [exact Q|]. left; reflexivity.
    + intros n Q _. rewrite C'. exact Q.
    + intros d D N. destruct (N (IO d D)).
    + intros pos _. apply G'.
  - assert (exists q, pt_append_dims p (map (fun d => (d, VLen 1)) dims) = Ok q /\ pt_append_dims p new = Ok q /\ True) as (q & Eq & Eq' & _).
    { assert (pt_append_dims p (map (fun d => (d, VLen 1)) dims) = pt_append_dims p new) as ->.
      { unfold pt_append_dims. fold old. fold new. replace (filter (fun e : string * cval => negb (mem (fst e) old)) new) with new; [reflexivity|].
        unfold new. rewrite filter_filter. apply filter_ext. intros e. destruct (negb _); reflexivity. }
      destruct (pt_append_ok p new W NDn) as (q & E & _).
      - intros Q. apply Z. rewrite Q. reflexivity.
      - intros e J. assert (In (fst e) dims /\ ~ In (fst e) old) as [J1 J2] by (apply In_new, in_map, J).
        split; [apply H1; assumption|]. split; [apply H2; assumption|].
        unfold new in J. apply filter_In in J as [J _]. apply in_map_iff in J as (d & <- & _). cbn. lia.
      - eauto. }
    assert (VN : forall n v, assoc n new = Some v -> v = VLen 1 /\ In n dims /\ ~ In n old).
    { intros n v Q. apply assoc_in in Q. split; [|apply In_new; apply (in_map fst) in Q; exact Q].
      unfold new in Q. apply filter_In in Q as [Q _]. apply in_map_iff in Q as (d & [= _ <-] & _). reflexivity. }
    assert (NV : forall d, In d dims -> ~ In d old -> assoc d new = Some (VLen 1)).
    { intros d D N. assert (In d (map fst new)) as X by (apply In_new; auto). apply assoc_In in X as [v X]. destruct (VN _ _ X) as [-> _]. exact X. }
    destruct (pt_append_ok p new W NDn) as (q' & E & W1 & D1 & C1 & O1 & N1 & G1).
    { intros Q. apply Z. rewrite Q. reflexivity. }
    { intros e J. assert (In (fst e) dims /\ ~ In (fst e) old) as [J1 J2] by (apply In_new, in_map, J).
      split; [apply H1; assumption|]. split; [apply H2; assumption|].
      unfold new in J. apply filter_In in J as [J _]. apply in_map_iff in J as (d & <- & _). cbn. lia. }
    rewrite Eq' in E. injection E as <-. rewrite Eq. cbn [bind]. clear Eq Eq'.
    destruct (TR q W1) as (p' & E & W' & D' & C' & M' & G').
    { intros d. rewrite D1, in_app_iff, In_new. fold old. destruct (in_dec string_dec d old) as [J|J]; split; auto; try tauto. }
    exists p'. split; [exact E|]. split; [exact W'|]. split; [exact D'|]. rewrite C', M'. split; [|split; [|split]].
    + intros n m Q. destruct (C1 n) as [Ca Cb]; [apply assoc_In; eauto|]. split; [exact Cb|]. exists (recf m). rewrite Ca, Q.
      split; [reflexivity|]. right; reflexivity.
    + intros n Q N. apply O1; [apply assoc_None, Q|]. rewrite In_new. tauto.
    + intros d D N. destruct (N1 d _ (NV d D N)) as [_ (c & C & ->)]. exact C.
    + intros pos P. rewrite G'. apply G1. intros n v Q. destruct (VN n v Q) as (-> & J1 & J2). rewrite P by assumption. cbn. lia.
Qed.
