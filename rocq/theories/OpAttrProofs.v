(** Proofs for the attributes of operators on two patches (C102). *)
From Verif Require Import Base BaseFacts CoordModel FrameModel FrameProofs5 ChunkModel CmModel CmProofs
  AttrsModel AttrsSpec AttrsProofs AttrsProofs2 AttrsProofs3 AttrsProofs5 AttrsProofs8 OpAttrModel OpAttrSpec.
From Coq Require Import Strings.String Strings.Ascii.
Local Open Scope Z_scope.
Local Open Scope list_scope.

Lemma dump_says a k : tidy a -> assoc k (d_vals (dump a)) = says a k.
Proof. intros T. unfold says. destruct (String.eqb_spec k "dims") as [->|N]; [apply dump_dims, T|apply dump_assoc; assumption]. Qed.
Lemma wide_good l a : family l -> (forall x, In x l -> clear_names x) -> In a l -> a_dims a <> EmptyString -> good (all_names l) (mkDict (d_vals (dump a)) None).
Proof.
  intros F C A D. assert (T : tidy a) by (apply F, A).
  assert (Ap : forall k, In k (map fst (a_vals a)) -> apart (names_of a) k) by (intros k K; apply (proj2 F a a); assumption).
  pose proof (dump_good a T Ap (C a A) D) as G. constructor; cbn [d_vals d_coords coords_of].
  - apply (g_keys _ _ G).
  - intros k K N. assert (I : In k (map fst field_defaults) \/ In k (map fst (a_vals a))).
    { revert K. unfold dump. cbn [d_vals]. rewrite !map_app, !in_app_iff, map_fst_any. intros [H|[H|[H|[]]]]; [auto|right; now apply in_filter_fst in H|cbn in H; congruence]. }
    destruct I as [I|I]; [|apply (family_apart l a); assumption]. split; [apply (C a A k I)|]. intros c Hc. apply in_concat in Hc as (x & X & Hc). apply in_map_iff in X as (b & <- & B). apply (C b B k I), Hc.
  - apply (g_own _ _ G).
  - discriminate.
  - destruct (g_dims _ _ G) as [E|(v & ds & E & V & Sub)]; [left; exact E|right]. exists v, ds. split; [exact E|]. split; [exact V|]. intros n N. apply (in_all_names l a); [exact A|apply Sub, N].
  - intros n [].
  - constructor.
  - intros n m [].
Qed.
Lemma unequal_nil ignore a b : tidy a -> tidy b -> NoDup (map fst (d_vals (dump a))) -> unequal ignore (d_vals (dump a)) (d_vals (dump b)) = [] <-> forall k, ~ conflict ignore a b k.
Proof.
  intros Ta Tb ND. unfold unequal. split.
  - intros E k (NI & v & w & V & W & X). apply map_eq_nil in E. rewrite <- (dump_says a k Ta) in V. rewrite <- (dump_says b k Tb) in W. apply assoc_in in V.
    assert (I : In (k, v) (filter (fun e => negb (mem (fst e) ignore) && match assoc (fst e) (d_vals (dump b)) with Some w => negb (scal_eqb w (snd e)) | None => false end) (d_vals (dump a)))).
    { apply filter_In. split; [exact V|]. cbn [fst snd]. rewrite W, (proj2 (mem_false k ignore) NI). cbn. destruct (scal_eqb w v) eqn:Q; [|reflexivity]. apply scal_eqb_spec in Q as [-> N]. destruct X as [X|X]; contradiction. }
    rewrite E in I. exact I.
  - intros H. destruct (filter _ _) as [|[k v] t] eqn:E; [reflexivity|exfalso]. assert (I : In (k, v) ((k, v) :: t)) by (left; reflexivity). rewrite <- E in I. apply filter_In in I as [I B]. cbn [fst snd] in B.
    apply Bool.andb_true_iff in B as [B1 B2]. destruct (assoc k (d_vals (dump b))) as [w|] eqn:W; [|discriminate]. apply (H k). split.
    + intros J. apply mem_In' in J. rewrite J in B1. discriminate.
    + exists v, w. rewrite <- (dump_says a k Ta), <- (dump_says b k Tb). split; [apply in_assoc; assumption|]. split; [exact W|]. destruct (scal_dec v w) as [->|N]; [|left; exact N]. right. destruct (scal_eqb w w) eqn:Q; [discriminate|]. destruct w; try reflexivity; exfalso; assert (X : forall u, u <> ANull -> scal_eqb u u = true) by (intros u U; apply scal_eqb_spec; split; [reflexivity|exact U]); rewrite X in Q; discriminate.
Qed.

Lemma two_tidy a b : two_patches a b -> tidy a /\ tidy b /\ NoDup (map fst (d_vals (dump a))) /\ NoDup (map fst (d_vals (dump b))).
Proof.
  intros (F & Ca & Cb & Da & Db). assert (C : forall x, In x [a; b] -> clear_names x) by (intros x [<-|[<-|[]]]; assumption).
  split; [apply F; left; reflexivity|]. split; [apply F; right; left; reflexivity|]. split.
  - apply (g_keys _ _ (wide_good [a; b] a F C (or_introl eq_refl) Da)).
  - apply (g_keys _ _ (wide_good [a; b] b F C (or_intror (or_introl eq_refl)) Db)).
Qed.
Lemma combined a b : two_patches a b -> exists r, combine_attrs [MDict (mkDict (d_vals (dump a)) None); MDict (mkDict (d_vals (dump b)) None)] "" "keep_first" [] None = Ok r /\
  forall k, says r k = match says a k with Some v => Some v | None => says b k end.
Proof.
  intros P. destruct (two_tidy a b P) as (Ta & Tb & _). destruct P as (F & Ca & Cb & Da & Db). assert (C : forall x, In x [a; b] -> clear_names x) by (intros x [<-|[<-|[]]]; assumption).
  pose proof (wide_good [a; b] a F C (or_introl eq_refl) Da) as Ga. pose proof (wide_good [a; b] b F C (or_intror (or_introl eq_refl)) Db) as Gb.
  set (x := mkDict (d_vals (dump a)) None) in *. set (y := mkDict (d_vals (dump b)) None) in *.
  assert (E : combine_attrs [MDict x; MDict y] "" "keep_first" [] None = mk_attrs (chain [x; y])).
  { unfold combine_attrs. cbn [negb mem existsb conflict_values String.eqb]. unfold model_dicts. cbn [map model_dict String.eqb bind]. unfold x, y. cbn [d_vals d_coords mem existsb negb].
    assert (T : forall l : sdict, filter (fun _ => true) l = l) by (induction l as [|e t IH]; cbn; congruence). rewrite !T. reflexivity. }
  rewrite E. assert (G : good (all_names [a; b]) (chain [x; y])) by (apply chain_good; intros d [<-|[<-|[]]]; assumption).
  destruct (mk_attrs_good _ _ (family_fair _ F) G) as (r & R & V & AV & _ & D & _). exists r. split; [exact R|].
  assert (AC : forall k, assoc k (d_vals (chain [x; y])) = match says a k with Some v => Some v | None => says b k end).
  { intros k. cbn [chain fold_right]. rewrite !first_over_assoc. unfold x, y. cbn [d_vals]. rewrite !dump_says by assumption. destruct (says a k), (says b k); reflexivity. }
  intros k. unfold says at 1. destruct (String.eqb_spec k "dims") as [->|N].
  - specialize (AC "dims"%string). unfold says in *. cbn in AC |- *. rewrite (D _ AC). reflexivity.
  - rewrite (V k N). unfold eff. rewrite AC. unfold says. destruct (String.eqb_spec k "dims"); [contradiction|]. destruct (value_of a k) as [v|] eqn:E1; [reflexivity|]. destruct (value_of b k) as [w|] eqn:E2; [reflexivity|].
    rewrite value_assoc in E1. rewrite default_of_spec. destruct (assoc k (a_vals a)); [discriminate|exact E1].
Qed.
Lemma null_spec v : all_null v = true <-> null v.
Proof. unfold null. destruct v as [| |z|s|[|x t]]; cbn; split; intros H; auto; try discriminate; destruct H as [H|[H|H]]; discriminate. Qed.
Lemma private_spec k : private k = true <-> exists r, k = ("_" ++ r)%string.
Proof.
  destruct k as [|c k]; cbn; split; [discriminate|intros [r E]; discriminate| |].
  - intros E. apply Ascii.eqb_eq in E. subst. exists k. reflexivity.
  - intros [r E]. injection E as -> _. reflexivity.
Qed.
Lemma key_sets a b : same_key_sets a b = true <-> forall k, In k (map fst a) <-> In k (map fst b).
Proof.
  unfold same_key_sets. rewrite Bool.andb_true_iff, !forallb_forall. split.
  - intros [A B] k. split; intros H; apply has_key_spec; auto.
  - intros H. split; intros k K; apply has_key_spec, H, K.
Qed.
Definition values_part (a b : attrs) : bool :=
  same_key_sets (d_vals (dump a)) (d_vals (dump b))
  && forallb (fun e => private (fst e) || match assoc (fst e) (d_vals (dump b)) with
                                          | Some w => scal_eqb (snd e) w || all_null (snd e) && all_null w
                                          | None => false end) (d_vals (dump a)).
Lemma values_spec a b : two_patches a b -> values_part a b = true <-> equal_values a b.
Proof.
  intros P. destruct (two_tidy a b P) as (Ta & Tb & Na & Nb). unfold values_part. rewrite Bool.andb_true_iff, key_sets, forallb_forall. split.
  - intros [K H] k. rewrite <- !dump_says by assumption. destruct (assoc k (d_vals (dump a))) as [v|] eqn:A.
    + specialize (H (k, v) (assoc_in _ _ _ A)). cbn [fst snd] in H. destruct (assoc k (d_vals (dump b))) as [w|] eqn:B.
      * apply Bool.orb_true_iff in H as [H|H]; [left; apply private_spec, H|right]. apply Bool.orb_true_iff in H as [H|H]; [left; apply scal_eqb_spec in H; apply H|right]. apply Bool.andb_true_iff in H as [H1 H2]. split; apply null_spec; assumption.
      * apply assoc_None in B. apply B, K. apply assoc_In. eauto.
    + destruct (assoc k (d_vals (dump b))) as [w|] eqn:B; [|exact I]. apply assoc_None in A. apply A, K. apply assoc_In. eauto.
  - intros H. split.
    + intros k. specialize (H k). rewrite <- !dump_says in H by assumption. rewrite <- !assoc_In. destruct (assoc k (d_vals (dump a))) as [v|], (assoc k (d_vals (dump b))) as [w|]; try contradiction; split; intros [x E]; try discriminate; eauto.
    + intros [k v] I. cbn [fst snd]. specialize (H k). rewrite <- !dump_says in H by assumption. rewrite (in_assoc k v _ Na I) in H. destruct (assoc k (d_vals (dump b))) as [w|]; [|contradiction].
      destruct H as [H|[H|[H1 H2]]]; [rewrite (proj2 (private_spec k) H); reflexivity| |rewrite (proj2 (null_spec v) H1), (proj2 (null_spec w) H2), !Bool.orb_true_r; reflexivity].
      subst w. destruct (scal_dec v ANull) as [->|N]; [cbn; rewrite !Bool.orb_true_r; reflexivity|]. rewrite (proj2 (scal_eqb_spec v v) (conj eq_refl N)). rewrite Bool.orb_true_r. reflexivity.
Qed.
Lemma equal_parts a b : attrs_equal a b = values_part a b && match d_coords (dump a), d_coords (dump b) with Some x, Some y => coval_eqb x y | _, _ => false end.
Proof. reflexivity. Qed.

Theorem op_result ignore a b r : two_patches a b -> merge_models ignore a b = Ok r -> forall k, says r k = match says a k with Some v => Some v | None => says b k end.
Proof.
  intros P H k. unfold merge_models in H. destruct (attrs_equal a b) eqn:E.
  - injection H as <-. rewrite equal_parts in E. apply Bool.andb_true_iff in E as [E _]. apply (values_spec a b P) in E. specialize (E k). destruct (says a k), (says b k); try reflexivity; contradiction.
  - destruct (unequal _ _ _); [|discriminate]. destruct (combined a b P) as (r' & R & V). rewrite R in H. injection H as <-. apply V.
Qed.
Theorem op_refused ignore a b e : two_patches a b -> merge_models ignore a b = Err e -> e = IncompatiblePatchError /\ exists k, conflict ignore a b k.
Proof.
  intros P H. destruct (two_tidy a b P) as (Ta & Tb & Na & _). unfold merge_models in H. destruct (attrs_equal a b) eqn:E; [discriminate|]. destruct (unequal _ _ _) as [|k t] eqn:U.
  - destruct (combined a b P) as (r' & R & V). rewrite R in H. discriminate.
  - injection H as <-. split; [reflexivity|]. exists k. unfold unequal in U. assert (I : In k (k :: t)) by (left; reflexivity). rewrite <- U in I. apply in_map_iff in I as ([k' v] & Ek & I). cbn in Ek. subst k'. apply filter_In in I as [I B]. cbn [fst snd] in B.
    apply Bool.andb_true_iff in B as [B1 B2]. destruct (assoc k (d_vals (dump b))) as [w|] eqn:W; [|discriminate]. split.
    + intros J. apply mem_In' in J. rewrite J in B1. discriminate.
    + exists v, w. rewrite <- (dump_says a k Ta), <- (dump_says b k Tb). split; [apply in_assoc; assumption|]. split; [exact W|]. destruct (scal_dec v w) as [->|N]; [|left; exact N]. right. destruct (scal_dec w ANull) as [|N]; [assumption|]. rewrite (proj2 (scal_eqb_spec w w) (conj eq_refl N)) in B2. discriminate.
Qed.
Theorem op_conflict ignore a b k : two_patches a b -> conflict ignore a b k -> ~ equal_values a b -> merge_models ignore a b = Err IncompatiblePatchError.
Proof.
  intros P C N. destruct (two_tidy a b P) as (Ta & Tb & Na & _). unfold merge_models. destruct (attrs_equal a b) eqn:E.
  - rewrite equal_parts in E. apply Bool.andb_true_iff in E as [E _]. apply (values_spec a b P) in E. contradiction.
  - destruct (unequal _ _ _) eqn:U; [|reflexivity]. exfalso. apply (proj1 (unequal_nil ignore a b Ta Tb Na) U k C).
Qed.
Lemma dict_refl {A} (R : A -> A -> bool) (m : list (string * A)) : NoDup (map fst m) -> (forall k v, In (k, v) m -> R v v = true) -> dict_eqb R m m = true.
Proof.
  intros N H. unfold dict_eqb. apply Bool.andb_true_iff. split; [|try apply Bool.andb_true_iff; try split]; try apply Z.eqb_refl; try apply Nat.eqb_refl; apply forallb_forall; intros [k v] I; cbn [fst snd]; rewrite (in_assoc k v m N I); eauto.
Qed.
Theorem op_equal ignore a b : two_patches a b -> equal_values a b -> a_coords a = a_coords b -> (forall n s, In (n, s) (a_coords a) -> ~ In ANull [s_min s; s_max s; s_step s; s_units s]) -> merge_models ignore a b = Ok a.
Proof.
  intros P E C NN. destruct (two_tidy a b P) as (Ta & _). unfold merge_models. replace (attrs_equal a b) with true; [reflexivity|]. symmetry. rewrite equal_parts. apply Bool.andb_true_iff. split; [apply values_spec; assumption|].
  unfold dump. cbn [d_coords]. rewrite <- C. cbn [coval_eqb]. unfold coval_eqb. cbn [coval_dict]. apply dict_refl.
  - rewrite map_fst_map. apply (t_coords _ Ta).
  - intros k m I. apply in_map_iff in I as ([n s] & X & I). cbn [fst snd] in X. injection X as <- <-. apply dict_self; [repeat constructor; cbn; intuition discriminate|]. specialize (NN n s I). intros f v J. unfold summ_dict in J. cbn in J, NN. intros ->.
    destruct J as [J|[J|[J|[J|[J|[]]]]]]; injection J as _ J; [discriminate| | | |]; apply NN; auto.
Qed.
Theorem op_order ignore a b r r' k : two_patches a b -> two_patches b a -> merge_models ignore a b = Ok r -> merge_models ignore b a = Ok r' ->
  ~ equal_values a b -> ~ In k ignore -> says r k = says r' k.
Proof.
  intros P P' R R' N NI. rewrite (op_result _ _ _ _ P R k), (op_result _ _ _ _ P' R' k). destruct (says a k) as [v|] eqn:A, (says b k) as [w|] eqn:B; try reflexivity.
  destruct (scal_dec v w) as [->|D]; [reflexivity|]. exfalso. rewrite (op_conflict ignore a b k P) in R; [discriminate| |exact N]. split; [exact NI|]. exists v, w. split; [exact A|]. split; [exact B|]. left. exact D.
Qed.
