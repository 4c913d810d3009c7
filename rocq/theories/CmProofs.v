(** Lemmas behind CmProps.v: dicts, coordinates of a manager, the validator,
    dropping and updating. *)
From Verif Require Import Base BaseFacts CoordModel CoordSpec CoordProofs CoordProofs2 CoordProofs3
  CoordProofs4 NdModel NdSpec NdProofs NdProofs2 FrameModel FrameProofs5 ChunkModel CmModel CmSpec.
From Coq Require Import Strings.String ZifyBool Sorting.Permutation Sorting.Sorted.
Ltac Zify.zify_post_hook ::= Z.div_mod_to_equations.
Local Open Scope Z_scope.
Local Open Scope list_scope.

(** ** Dicts *)
Lemma assoc_in {A} k (v : A) l : assoc k l = Some v -> In (k, v) l.
Proof.
  induction l as [|[k' w] t IH]; cbn; [discriminate|].
  destruct (String.eqb_spec k k') as [->|]; [intros [= ->]; auto|auto].
Qed.
Lemma assoc_In {A} k (l : list (string * A)) : (exists v, assoc k l = Some v) <-> In k (map fst l).
Proof.
  induction l as [|[k' w] t IH]; cbn; [split; [intros [v [=]]|intros []]|].
  destruct (String.eqb_spec k k') as [->|N].
  - split; eauto.
  - rewrite IH. split; [auto|]. intros [E|H]; [congruence|auto].
Qed.
Lemma assoc_None {A} k (l : list (string * A)) : assoc k l = None <-> ~ In k (map fst l).
Proof.
  rewrite <- assoc_In. destruct (assoc k l) as [v|]; split; try congruence; auto.
  - intros H. exfalso. eauto.
  - intros _ [v [=]].
Qed.
Lemma in_assoc {A} k (v : A) l : NoDup (map fst l) -> In (k, v) l -> assoc k l = Some v.
Proof.
  induction l as [|[k' w] t IH]; cbn; [intros _ []|].
  intros D [E|H]; inversion D as [|? ? N D']; subst.
  - injection E as -> ->. rewrite String.eqb_refl. reflexivity.
  - destruct (String.eqb_spec k k') as [->|]; [|auto].
    exfalso. apply N. apply in_map_iff. exists (k', v); auto.
Qed.
Lemma assoc_map {A B} (f : string * A -> B) k l :
  assoc k (map (fun e => (fst e, f e)) l) =
  match assoc k l with Some v => Some (f (k, v)) | None => None end.
Proof.
  induction l as [|[k' w] t IH]; cbn; [reflexivity|].
  destruct (String.eqb_spec k k') as [->|]; [reflexivity|exact IH].
Qed.
Lemma assoc_app {A} k (a b : list (string * A)) :
  assoc k (a ++ b) = match assoc k a with Some v => Some v | None => assoc k b end.
Proof.
  induction a as [|[k' w] t IH]; cbn; [reflexivity|].
  destruct (String.eqb k k'); [reflexivity|exact IH].
Qed.
Lemma assoc_filter {A} (f : string -> bool) k (l : list (string * A)) :
  assoc k (filter (fun e => f (fst e)) l) = if f k then assoc k l else None.
Proof.
  induction l as [|[k' w] t IH]; cbn [filter assoc fst]; [destruct (f k); reflexivity|].
  destruct (f k') eqn:F; cbn [assoc].
  - destruct (String.eqb_spec k k') as [->|]; [rewrite F; reflexivity|exact IH].
  - destruct (String.eqb_spec k k') as [->|]; [rewrite IH, F; reflexivity|exact IH].
Qed.
Lemma keys_assoc_set {A} k (v : A) l :
  map fst (assoc_set k v l) = if mem k (map fst l) then map fst l else map fst l ++ [k].
Proof.
  induction l as [|[k' w] t IH]; cbn; [reflexivity|].
  destruct (String.eqb_spec k k') as [->|]; cbn; [reflexivity|].
  rewrite IH. unfold mem. destruct (existsb (String.eqb k) (map fst t)); reflexivity.
Qed.
Lemma mem_In' k l : mem k l = true <-> In k l.
Proof.
  unfold mem. rewrite existsb_exists. split.
  - intros (x & I & E). apply String.eqb_eq in E. subst; auto.
  - intros I. exists k. split; [auto|apply String.eqb_refl].
Qed.
Lemma mem_false k l : mem k l = false <-> ~ In k l.
Proof. rewrite <- mem_In'. destruct (mem k l); split; congruence. Qed.
Lemma assoc_set_new {A} k (v : A) l : ~ In k (map fst l) -> assoc_set k v l = l ++ [(k, v)].
Proof.
  induction l as [|[k' w] t IH]; cbn; [reflexivity|]. intros H.
  destruct (String.eqb_spec k k') as [->|]; [tauto|]. rewrite IH by tauto. reflexivity.
Qed.
Lemma NoDup_assoc_set {A} k (v : A) l : NoDup (map fst l) -> NoDup (map fst (assoc_set k v l)).
Proof.
  intros D. rewrite keys_assoc_set. destruct (mem k (map fst l)) eqn:E; [exact D|].
  apply mem_false in E. eapply Permutation_NoDup; [apply Permutation_cons_append|].
  constructor; assumption.
Qed.
Lemma In_assoc_set {A} k (v : A) l x : In x (map fst (assoc_set k v l)) <-> x = k \/ In x (map fst l).
Proof.
  rewrite keys_assoc_set. destruct (mem k (map fst l)) eqn:E.
  - apply mem_In' in E. split; [auto|]. intros [->|]; auto.
  - rewrite in_app_iff. cbn. intuition.
Qed.
Lemma assoc_assoc_set {A} k (v : A) l x :
  assoc x (assoc_set k v l) = if String.eqb x k then Some v else assoc x l.
Proof.
  destruct (String.eqb_spec x k) as [->|N]; [apply assoc_set_same|apply assoc_set_other; exact N].
Qed.
Lemma NoDup_keys_filter {A} (f : string -> bool) (l : list (string * A)) :
  NoDup (map fst l) -> NoDup (map fst (filter (fun e => f (fst e)) l)).
Proof.
  induction l as [|[k v] t IH]; cbn; intros D; [constructor|]. inversion D as [|? ? N D']; subst.
  destruct (f k); cbn; [constructor|]; auto.
  intros I. apply N. apply in_map_iff in I. destruct I as (e & <- & I).
  apply filter_In in I. apply in_map. tauto.
Qed.

(** set_all *)
Lemma set_all_keys {A} (new base : list (string * A)) x :
  In x (map fst (set_all new base)) <-> In x (map fst new) \/ In x (map fst base).
Proof.
  unfold set_all. revert base. induction new as [|[k v] t IH]; intros base; cbn; [tauto|].
  rewrite IH, In_assoc_set. cbn. intuition.
Qed.
Lemma set_all_NoDup {A} (new base : list (string * A)) :
  NoDup (map fst base) -> NoDup (map fst (set_all new base)).
Proof.
  unfold set_all. revert base. induction new as [|[k v] t IH]; intros base D; cbn; [exact D|].
  apply IH. apply NoDup_assoc_set. exact D.
Qed.
Lemma set_all_assoc {A} (new base : list (string * A)) x : NoDup (map fst new) ->
  assoc x (set_all new base) = match assoc x new with Some v => Some v | None => assoc x base end.
Proof.
  unfold set_all. revert base. induction new as [|[k v] t IH]; intros base D; cbn; [reflexivity|].
  inversion D as [|? ? N D']; subst. rewrite (IH _ D'). rewrite assoc_assoc_set.
  destruct (String.eqb_spec x k) as [->|]; [|reflexivity].
  rewrite (proj2 (assoc_None k t) N). reflexivity.
Qed.

Lemma Forall2_impl {A B} (P Q : A -> B -> Prop) l m :
  (forall x y, P x y -> Q x y) -> Forall2 P l m -> Forall2 Q l m.
Proof. intros H F. induction F; constructor; auto. Qed.
Lemma Forall2_impl_in {A B} (P Q : A -> B -> Prop) l m :
  (forall x y, In x l -> P x y -> Q x y) -> Forall2 P l m -> Forall2 Q l m.
Proof. intros H F. induction F; constructor; auto; [apply H; cbn; auto|apply IHF; intros; apply H; cbn; auto]. Qed.

(** ** map_result *)
Lemma map_result_map {A B} (f : A -> result B) (g : A -> B) l :
  (forall x, In x l -> f x = Ok (g x)) -> map_result f l = Ok (map g l).
Proof.
  induction l as [|x t IH]; intros H; cbn; [reflexivity|].
  rewrite (H x (or_introl eq_refl)). cbn. rewrite IH by (intros; apply H; right; assumption).
  reflexivity.
Qed.
Lemma map_result_Forall2 {A B} (f : A -> result B) l ys :
  map_result f l = Ok ys <-> Forall2 (fun x y => f x = Ok y) l ys.
Proof.
  revert ys. induction l as [|x t IH]; intros ys; cbn.
  - split; [intros [= <-]; constructor|intros H; inversion H; reflexivity].
  - split.
    + destruct (f x) as [y|] eqn:E; [cbn|discriminate].
      destruct (map_result f t) as [r|] eqn:T; [cbn|discriminate].
      intros [= <-]. constructor; [exact E|]. apply IH. reflexivity.
    + intros H; inversion H as [|? y ? r E F]; subst. rewrite E. cbn.
      apply IH in F. rewrite F. reflexivity.
Qed.
Lemma map_result_unit {A} (f : A -> result unit) l :
  (exists u, map_result f l = Ok u) <-> forall x, In x l -> f x = Ok tt.
Proof.
  split.
  - intros [u H] x I. apply map_result_Forall2 in H. revert I. induction H as [|y v l' u' E F IH]; intros I; [destruct I|].
    destruct I as [->|I]; [destruct v; exact E|auto].
  - intros H. exists (map (fun _ => tt) l). apply map_result_map. exact H.
Qed.

(** ** Small booleans *)
Lemma strs_eqb_eq a b : strs_eqb a b = true <-> a = b.
Proof.
  revert b. induction a as [|x a IH]; intros [|y b]; cbn; try (split; congruence).
  rewrite andb_true_iff, String.eqb_eq, IH. split; [intros [-> ->]; reflexivity|intros [= -> ->]; auto].
Qed.
Lemma zlist_eqb_eq a b : zlist_eqb a b = true <-> a = b.
Proof.
  revert b. induction a as [|x a IH]; intros [|y b]; cbn; try (split; congruence).
  rewrite andb_true_iff, Z.eqb_eq, IH. split; [intros [-> ->]; reflexivity|intros [= -> ->]; auto].
Qed.
Lemma subset_spec a b : subset a b = true <-> forall x, In x a -> In x b.
Proof.
  unfold subset. rewrite forallb_forall. split; intros H x I; [apply mem_In'|apply mem_In']; auto.
Qed.
Lemma meets_any_spec a b : meets_any a b = true <-> exists x, In x a /\ In x b.
Proof.
  unfold meets_any. rewrite existsb_exists. split; intros (x & I & M); exists x; split; auto;
    apply mem_In'; auto.
Qed.
Lemma index_of_spec d l n : index_of d l = Some n ->
  nth_error l n = Some d /\ forall k, (k < n)%nat -> nth_error l k <> Some d.
Proof.
  revert n. induction l as [|x t IH]; intros n; cbn; [discriminate|].
  destruct (String.eqb_spec d x) as [->|N].
  - intros [= <-]. split; [reflexivity|]. intros k K; lia.
  - destruct (index_of d t) as [m|]; [cbn|discriminate]. intros [= <-].
    destruct (IH m eq_refl) as [A B]. split; [exact A|]. intros [|k] K; cbn; [congruence|]. apply B. lia.
Qed.
Lemma index_of_In d l : (exists n, index_of d l = Some n) <-> In d l.
Proof.
  split.
  - intros [n H]. apply index_of_spec in H. eapply nth_error_In. apply H.
  - induction l as [|x t IH]; cbn; [intros []|]. intros H.
    destruct (String.eqb_spec d x) as [->|N]; [eauto|]. destruct H as [E|H]; [congruence|].
    destruct (IH H) as [n ->]. cbn. eauto.
Qed.
Lemma index_of_None d l : index_of d l = None <-> ~ In d l.
Proof.
  rewrite <- index_of_In. destruct (index_of d l) as [n|]; split; try congruence; auto.
  - intros H; exfalso; eauto.
  - intros _ [n [=]].
Qed.

(** ** The validator *)
Lemma m_len_M1 c : m_len (M1 c) = Ok (c_len c). Proof. reflexivity. Qed.

Lemma expected_shape_ok dims cmap ds want : expected_shape dims cmap ds = Ok want <->
  Forall2 (fun d n => In d dims /\ exists m, assoc d cmap = Some m /\ m_len m = Ok n) ds want.
Proof.
  unfold expected_shape. rewrite map_result_Forall2. split; intros H.
  - eapply Forall2_impl; [|exact H]. cbn. intros d n E. destruct (mem d dims) eqn:M; [|discriminate].
    apply mem_In' in M. destruct (assoc d cmap) as [m|]; [|discriminate]. eauto.
  - eapply Forall2_impl; [|exact H]. cbn. intros d n (I & m & E & L).
    rewrite (proj2 (mem_In' d dims) I), E. exact L.
Qed.

(** Exactly the managers the validator accepts. *)
Definition accepted (dims : list string) (cmap : list (string * mcoord))
  (dmap : list (string * list string)) : Prop :=
  (forall d, In d dims -> exists m, assoc d cmap = Some m) /\
  (forall n ds, In (n, ds) dmap -> exists m want, assoc n cmap = Some m /\
     Forall2 (fun d k => In d dims /\ exists m', assoc d cmap = Some m' /\ m_len m' = Ok k) ds want /\
     (want = m_shape m \/ want = [])) /\
  (forall d, In d dims -> assoc d dmap = Some [d]).

Lemma build_cm_accepted dims cmap dmap :
  (accepted dims cmap dmap -> build_cm dims cmap dmap = Ok (mkCm dims cmap dmap)) /\
  (forall cm, build_cm dims cmap dmap = Ok cm -> accepted dims cmap dmap /\ cm = mkCm dims cmap dmap).
Proof.
  assert (C : forall e, check_coord dims cmap e = Ok tt <-> exists m want, assoc (fst e) cmap = Some m /\
     Forall2 (fun d k => In d dims /\ exists m', assoc d cmap = Some m' /\ m_len m' = Ok k) (snd e) want /\
     (want = m_shape m \/ want = [])).
  { intros [n ds]. unfold check_coord. cbn [fst snd]. split.
    - destruct (expected_shape dims cmap ds) as [want|] eqn:E; [cbn|discriminate].
      apply expected_shape_ok in E. destruct (assoc n cmap) as [m|]; [|discriminate].
      destruct (_ || _) eqn:B; [|discriminate]. intros _. exists m, want. repeat split; auto.
      apply orb_true_iff in B as [B|B]; [left; apply zlist_eqb_eq; exact B|right; destruct want; congruence].
    - intros (m & want & E & F & W). apply expected_shape_ok in F. rewrite F. cbn. rewrite E.
      destruct W as [W|W]; [rewrite (proj2 (zlist_eqb_eq _ _) W)|rewrite W, orb_true_r]; reflexivity. }
  assert (D : forall d, check_dim dmap d = Ok tt <-> assoc d dmap = Some [d]).
  { intros d. unfold check_dim. destruct (assoc d dmap) as [ds|]; [|split; discriminate].
    destruct (strs_eqb ds [d]) eqn:E.
    - apply strs_eqb_eq in E. subst. split; reflexivity.
    - split; [discriminate|]. intros [= ->]. rewrite (proj2 (strs_eqb_eq _ _) eq_refl) in E. discriminate. }
  unfold build_cm, accepted. split.
  - intros (H1 & H2 & H3).
    assert (forallb (fun d => match assoc d cmap with Some _ => true | None => false end) dims = true) as ->.
    { apply forallb_forall. intros d I. destruct (H1 d I) as [m ->]. reflexivity. }
    destruct (proj2 (map_result_unit (check_coord dims cmap) dmap)) as [u ->].
    { intros [n ds] I. apply C. apply (H2 n ds I). }
    cbn. destruct (proj2 (map_result_unit (check_dim dmap) dims)) as [u' ->].
    { intros d I. apply D. auto. }
    reflexivity.
  - intros cm. destruct (forallb _ dims) eqn:F; [|discriminate].
    destruct (map_result (check_coord dims cmap) dmap) as [u|] eqn:M1; [cbn|discriminate].
    destruct (map_result (check_dim dmap) dims) as [u'|] eqn:M2; [cbn|discriminate].
    intros [= <-]. split; [|reflexivity]. split; [|split].
    + intros d I. rewrite forallb_forall in F. specialize (F d I).
      destruct (assoc d cmap) as [m|]; [eauto|discriminate].
    + intros n ds I. assert (X := proj1 (map_result_unit (check_coord dims cmap) dmap) (ex_intro _ u M1) _ I).
      apply C in X. exact X.
    + intros d I. apply D. exact (proj1 (map_result_unit (check_dim dmap) dims) (ex_intro _ u' M2) _ I).
Qed.

Definition ndim_ok (m : mcoord) : Prop :=
  match m with
  | M1 _ => True
  | MN _ a => List.length (nd_shape a) <> 1%nat
  | MNP s => List.length s <> 1%nat
  end.
Lemma wf_ndim m : wf_mcoord m -> ndim_ok m.
Proof. destruct m; cbn; tauto. Qed.
Lemma ndim_1 m n : ndim_ok m -> m_shape m = [n] -> exists c, m = M1 c /\ c_len c = n.
Proof.
  destruct m as [c|k a|s]; cbn; intros H E.
  - injection E as E. eauto.
  - rewrite E in H. cbn in H. congruence.
  - rewrite E in H. cbn in H. congruence.
Qed.

Lemma accepted_consistent dims cmap dmap : accepted dims cmap dmap ->
  (forall n m, assoc n cmap = Some m -> ndim_ok m) -> consistent (mkCm dims cmap dmap).
Proof.
  intros (H1 & H2 & H3) K.
  assert (D : forall d, In d dims -> exists c, assoc d cmap = Some (M1 c)).
  { intros d I. pose proof (H3 d I) as E. apply assoc_in in E.
    destruct (H2 _ _ E) as (m & want & A & F & W).
    inversion F as [|? k ? ? _ F']; subst. inversion F'; subst.
    destruct W as [W|W]; [|discriminate]. symmetry in W.
    destruct (ndim_1 m k (K _ _ A) W) as (c & -> & _). eauto. }
  split; cbn.
  - intros d I. split; [apply D; exact I|apply H3; exact I].
  - intros n ds E. apply assoc_in in E. destruct (H2 _ _ E) as (m & want & A & F & W).
    exists m. split; [exact A|]. split.
    + intros d I. clear - F I. induction F as [|x y l l' H F IH]; [destruct I|]. destruct I as [->|I]; [tauto|auto].
    + destruct W as [ -> | -> ]; [right|left].
      * eapply Forall2_impl; [|exact F]. cbn. intros d k (I & m' & A' & L).
        destruct (D d I) as [c C]. exists c. split; [exact C|]. rewrite C in A'.
        injection A' as <-. cbn in L. congruence.
      * inversion F; reflexivity.
Qed.

Lemma consistent_accepted cm : consistent cm -> NoDup (map fst (cm_dmap cm)) ->
  accepted (cm_dims cm) (cm_coords cm) (cm_dmap cm).
Proof.
  intros [C1 C2] N. split; [|split].
  - intros d I. destruct (C1 d I) as [[c ->] _]. eauto.
  - intros n ds I. apply (in_assoc _ _ _ N) in I. destruct (C2 n ds I) as (m & A & D & W).
    assert (F : forall d, In d ds -> exists k, In d (cm_dims cm) /\
       exists m', assoc d (cm_coords cm) = Some m' /\ m_len m' = Ok k).
    { intros d J. destruct (C1 d (D d J)) as [[c E] _]. exists (c_len c). eauto. }
    destruct W as [->|W].
    + exists m, []. repeat split; auto.
    + exists m, (m_shape m). repeat split; auto. clear - W D.
      induction W as [|d k ds s (c & E & L) W IH]; constructor.
      * split; [apply D; left; reflexivity|]. exists (M1 c). split; [exact E|]. cbn. congruence.
      * apply IH. intros x X. apply D. right; exact X.
  - intros d I. apply (C1 d I).
Qed.

Lemma build_wf dims cmap dmap : wf_cm (mkCm dims cmap dmap) ->
  build_cm dims cmap dmap = Ok (mkCm dims cmap dmap).
Proof.
  intros W. apply build_cm_accepted.
  exact (consistent_accepted (mkCm dims cmap dmap) (wf_con _ W) (wf_dkeys _ W)).
Qed.

Lemma wf_keys_iff cm : wf_cm cm -> forall n,
  In n (map fst (cm_coords cm)) <-> In n (map fst (cm_dmap cm)).
Proof.
  intros W n. split; [apply (wf_keys _ W)|]. intros I. apply assoc_In in I. destruct I as [ds E].
  destruct (con_coord _ (wf_con _ W) n ds E) as (m & A & _). apply assoc_In. eauto.
Qed.
Lemma wf_lookup cm n m : wf_cm cm -> assoc n (cm_coords cm) = Some m ->
  exists ds, assoc n (cm_dmap cm) = Some ds /\ (forall d, In d ds -> In d (cm_dims cm)) /\
    (ds = [] \/ Forall2 (dim_len cm) ds (m_shape m)).
Proof.
  intros W E. assert (I : In n (map fst (cm_dmap cm))) by (apply (wf_keys _ W); apply assoc_In; eauto).
  apply assoc_In in I. destruct I as [ds D]. exists ds. split; [exact D|].
  destruct (con_coord _ (wf_con _ W) n ds D) as (m' & A & X & Y). rewrite E in A.
  injection A as <-. auto.
Qed.
Lemma wf_dim_coord cm d : wf_cm cm -> In d (cm_dims cm) ->
  exists c, assoc d (cm_coords cm) = Some (M1 c) /\ wf_coord c /\ assoc d (cm_dmap cm) = Some [d].
Proof.
  intros W I. destruct (con_dim _ (wf_con _ W) d I) as [[c C] D]. exists c. repeat split; auto.
  apply (wf_vals _ W _ _ C).
Qed.
Lemma c_len_nonneg c : wf_coord c -> 0 <= c_len c.
Proof.
  destruct c; cbn; try (intros; apply zlen_nonneg); auto. intros (_ & ? & _); lia.
Qed.

(** ** Dropping *)
Definition dropped (cm : cman) (names : list string) (n : string) : Prop :=
  In n names \/ exists ds d, assoc n (cm_dmap cm) = Some ds /\ In d ds /\ In d names.

Definition droppedb (cm : cman) (names : list string) (n : string) : bool :=
  mem n names || match assoc n (cm_dmap cm) with Some ds => meets_any ds names | None => false end.
Lemma droppedb_spec cm names n : droppedb cm names n = true <-> dropped cm names n.
Proof.
  unfold droppedb, dropped. rewrite orb_true_iff, mem_In'.
  destruct (assoc n (cm_dmap cm)) as [ds|].
  - rewrite meets_any_spec. split; intros [H|H]; auto.
    + destruct H as (x & ? & ?). right. exists ds, x. auto.
    + destruct H as (ds' & d & [= <-] & ? & ?). right. exists d; auto.
  - split; intros [H|H]; auto; [discriminate|]. destruct H as (ds' & d & [=] & _).
Qed.

Lemma dim_dropped cm names d : wf_cm cm -> In d (cm_dims cm) ->
  (dropped cm names d <-> In d names).
Proof.
  intros W I. split; [|left; assumption]. intros [H|(ds & x & E & X & Y)]; [exact H|].
  destruct (wf_dim_coord cm d W I) as (c & _ & _ & D). rewrite D in E. injection E as <-.
  destruct X as [<-|[]]. exact Y.
Qed.

Definition drop_ix (cm : cman) (names : list string) : list indexer :=
  map (fun d => if mem d names then simple_slice (Some 0) (Some 0) else simple_slice None None)
      (cm_dims cm).

Lemma drop_coords_spec cm names : wf_cm cm ->
  exists cm', drop_coords cm names = Ok (cm', drop_ix cm names) /\ wf_cm cm' /\
    cm_dims cm' = filter (fun d => negb (mem d names)) (cm_dims cm) /\
    (forall n, assoc n (cm_coords cm') = if droppedb cm names n then None else assoc n (cm_coords cm)) /\
    (forall n, assoc n (cm_dmap cm') = if droppedb cm names n then None else assoc n (cm_dmap cm)).
Proof.
  intros W. unfold drop_coords, drop_ix.
  destruct (existsb (fun e => mem (fst e) names) (cm_coords cm)) eqn:X; cbn [negb].
  - set (dimdrop := map fst (filter (fun e => meets_any (snd e) names) (cm_dmap cm))).
    assert (DD : forall n, mem n dimdrop = true <-> exists ds d, assoc n (cm_dmap cm) = Some ds /\ In d ds /\ In d names).
    { intros n. rewrite mem_In'. unfold dimdrop. rewrite in_map_iff. split.
      - intros ([n' ds] & <- & I). apply filter_In in I. destruct I as [I M]. cbn in M |- *.
        apply meets_any_spec in M. destruct M as (d & ? & ?). exists ds, d. split; auto.
        apply in_assoc; [apply (wf_dkeys _ W)|exact I].
      - intros (ds & d & E & ? & ?). exists (n, ds). split; [reflexivity|]. apply filter_In.
        split; [apply assoc_in; exact E|]. cbn. apply meets_any_spec. eauto. }
    assert (G : forall n, mem n dimdrop || mem n names = droppedb cm names n).
    { intros n. apply eq_true_iff_eq. rewrite droppedb_spec. unfold dropped.
      rewrite orb_true_iff, DD, mem_In'. tauto. }
    assert (ED : filter (fun d => negb (mem d dimdrop)) (cm_dims cm) =
                 filter (fun d => negb (mem d names)) (cm_dims cm)).
    { apply filter_ext_in. intros d I. f_equal. apply eq_true_iff_eq. rewrite DD, mem_In'.
      rewrite <- (dim_dropped cm names d W I). unfold dropped. split; [tauto|].
      intros [H|H]; [|exact H]. destruct (wf_dim_coord cm d W I) as (c & _ & _ & D).
      exists [d], d. cbn; auto. }
    set (cmap' := filter (fun e => negb (mem (fst e) dimdrop || mem (fst e) names)) (cm_coords cm)).
    set (dmap' := filter (fun e => negb (mem (fst e) dimdrop || mem (fst e) names)) (cm_dmap cm)).
    assert (LC : forall n, assoc n cmap' = if droppedb cm names n then None else assoc n (cm_coords cm)).
    { intros n. unfold cmap'. rewrite (assoc_filter (fun n => negb (mem n dimdrop || mem n names))).
      rewrite G. destruct (droppedb cm names n); reflexivity. }
    assert (LD : forall n, assoc n dmap' = if droppedb cm names n then None else assoc n (cm_dmap cm)).
    { intros n. unfold dmap'. rewrite (assoc_filter (fun n => negb (mem n dimdrop || mem n names))).
      rewrite G. destruct (droppedb cm names n); reflexivity. }
    assert (W' : wf_cm (mkCm (filter (fun d => negb (mem d dimdrop)) (cm_dims cm)) cmap' dmap')).
    { split.
      - split; cbn.
        + intros d I. rewrite ED in I. apply filter_In in I. destruct I as [I M].
          apply negb_true_iff, mem_false in M.
          assert (Nd : droppedb cm names d = false).
          { apply not_true_is_false. rewrite droppedb_spec, (dim_dropped _ _ _ W I). exact M. }
          destruct (wf_dim_coord cm d W I) as (c & C & _ & D).
          rewrite LC, LD, Nd. split; [eauto|exact D].
        + intros n ds E. rewrite LD in E. destruct (droppedb cm names n) eqn:Nd; [discriminate|].
          destruct (con_coord _ (wf_con _ W) n ds E) as (m & A & D & S).
          assert (K : forall d, In d ds -> droppedb cm names d = false).
          { intros d J. apply not_true_is_false. rewrite droppedb_spec, (dim_dropped _ _ _ W (D d J)).
            intros J'. assert (droppedb cm names n = true); [|congruence]. apply droppedb_spec.
            right. exists ds, d. auto. }
          exists m. rewrite LC, Nd. split; [exact A|]. split.
          * intros d J. rewrite ED. apply filter_In. split; [apply D; exact J|].
            apply negb_true_iff, mem_false. intros J'. specialize (K d J).
            assert (droppedb cm names d = true); [|congruence]. apply droppedb_spec. left; exact J'.
          * destruct S as [S|S]; [left; exact S|right]. eapply Forall2_impl_in; [|exact S].
            intros d k J (c & C & L). exists c. cbn. rewrite LC, (K d J). auto.
      - cbn. apply NoDup_filter, (wf_dims _ W).
      - cbn. unfold cmap'. apply (NoDup_keys_filter (fun n => negb (mem n dimdrop || mem n names))), (wf_ckeys _ W).
      - cbn. unfold dmap'. apply (NoDup_keys_filter (fun n => negb (mem n dimdrop || mem n names))), (wf_dkeys _ W).
      - cbn. intros n I. apply assoc_In in I. destruct I as [m E]. rewrite LC in E.
        destruct (droppedb cm names n) eqn:Nd; [discriminate|].
        destruct (wf_lookup cm n m W E) as (ds & D & _). apply assoc_In. exists ds. rewrite LD, Nd. exact D.
      - cbn. intros n ds E. rewrite LD in E. destruct (droppedb cm names n); [discriminate|].
        apply (wf_distinct _ W _ _ E).
      - cbn. intros n m E. rewrite LC in E. destruct (droppedb cm names n); [discriminate|].
        apply (wf_vals _ W _ _ E). }
    cbv zeta. rewrite (build_wf _ _ _ W'). cbn [bind].
    eexists. split; [reflexivity|]. split; [exact W'|]. split; [exact ED|]. split; assumption.
  - (* nothing to drop *)
    assert (K : forall n, (exists m, assoc n (cm_coords cm) = Some m) -> ~ In n names).
    { intros n [m E] I. apply assoc_in in E.
      assert (existsb (fun e => mem (fst e) names) (cm_coords cm) = true); [|congruence].
      apply existsb_exists. exists (n, m). split; [exact E|]. apply mem_In'. exact I. }
    assert (KD : forall d, In d (cm_dims cm) -> ~ In d names).
    { intros d I. apply K. destruct (wf_dim_coord cm d W I) as (c & C & _). eauto. }
    assert (N : forall n m, assoc n (cm_coords cm) = Some m -> droppedb cm names n = false).
    { intros n m E. apply not_true_is_false. rewrite droppedb_spec. intros [H|(ds & d & D & I & J)].
      - apply (K n); eauto.
      - destruct (wf_lookup cm n m W E) as (ds' & D' & S & _). rewrite D in D'. injection D' as <-.
        apply (KD d (S d I) J). }
    exists cm. split; [|split; [exact W|split; [|split]]].
    + f_equal. f_equal. apply map_ext_in. intros d I. rewrite (proj2 (mem_false d names) (KD d I)). reflexivity.
    + symmetry. rewrite <- (filter_ext_in (fun _ => true)).
      * clear. induction (cm_dims cm); cbn; congruence.
      * intros d I. rewrite (proj2 (mem_false d names) (KD d I)). reflexivity.
    + intros n. destruct (assoc n (cm_coords cm)) eqn:E; [rewrite (N n _ E)|destruct (droppedb cm names n)]; reflexivity.
    + intros n. destruct (assoc n (cm_dmap cm)) as [ds|] eqn:E; [|destruct (droppedb cm names n); reflexivity].
      destruct (con_coord _ (wf_con _ W) n ds E) as (m & A & _). rewrite (N n _ A). reflexivity.
Qed.
