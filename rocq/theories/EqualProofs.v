(** Proofs for equal patches (C93). *)
From Verif Require Import Base NdModel NdSpec AttrsModel EqualModel EqualSpec.
From Coq Require Import Strings.Ascii Strings.String QArith Qabs Lqa Lia Bool.
Local Open Scope Z_scope.
Local Open Scope list_scope.

Lemma forall2b_iff {A B} (f : A -> B -> bool) (R : A -> B -> Prop) l m : (forall x y, f x y = true <-> R x y) -> (forall2b f l m = true <-> Forall2 R l m).
Proof.
  intro H. revert m. induction l as [|x t IH]; intros [|y u]; cbn; split; intro K; try discriminate; try constructor; try (inversion K; subst; fail).
  - apply andb_true_iff in K as [K _]. apply H, K.
  - apply andb_true_iff in K as [_ K]. apply IH, K.
  - inversion K; subst. apply andb_true_iff. split; [apply H; assumption|apply IH; assumption].
Qed.
Lemma forall2b_eq {A} (f : A -> A -> bool) l m : (forall x y, f x y = true <-> x = y) -> (forall2b f l m = true <-> l = m).
Proof.
  intro H. rewrite (forall2b_iff f eq l m H). split; [|intros <-; induction l; constructor; auto]. induction 1; congruence.
Qed.
Lemma look_in {A} k (l : list (string * A)) : NoDup (map fst l) -> forall v, look k l = Some v <-> In (k, v) l.
Proof.
  induction l as [|[n w] t IH]; cbn; intros N v; [split; [discriminate|intros []]|]. inversion N; subst. destruct (String.eqb_spec n k) as [->|E].
  - split; [intro K; left; congruence|]. intros [K|K]; [congruence|]. exfalso. apply H1. apply in_map_iff. exists (k, v). auto.
  - rewrite (IH H2 v). split; [auto|]. intros [K|K]; [congruence|exact K].
Qed.
Lemma look_name {A} k (l : list (string * A)) : In k (map fst l) <-> exists v, look k l = Some v.
Proof.
  induction l as [|[n w] t IH]; cbn; [split; [intros []|intros [v K]; discriminate]|]. destruct (String.eqb_spec n k) as [->|E]; [split; eauto|].
  rewrite <- IH. split; [intros [K|K]; [contradiction|exact K]|auto].
Qed.
Lemma has_name_iff l n : has_name l n = true <-> In n l.
Proof. unfold has_name. rewrite existsb_exists. split; [intros (x & I & E); apply String.eqb_eq in E; congruence|]. intro I. exists n. split; [exact I|apply String.eqb_refl]. Qed.
Lemma same_set_iff l m : same_set l m = true <-> forall n, In n l <-> In n m.
Proof.
  unfold same_set. rewrite andb_true_iff, !forallb_forall. split.
  - intros [A B] n. split; intro I; apply has_name_iff; auto.
  - intro H. split; intros n I; apply has_name_iff, H, I.
Qed.

Lemma isclose_iff x y : isclose x y = true <-> near x y.
Proof. unfold isclose, near. apply Qle_bool_iff. Qed.
Lemma close_or_null_iff x y : close_or_null x y = true <-> (forall a b, x = Some a -> y = Some b -> near a b).
Proof.
  destruct x as [a|], y as [b|]; cbn; split; intro H; try reflexivity; try (intros; discriminate).
  - intros a' b' E F. injection E as <-. injection F as <-. apply isclose_iff, H.
  - apply isclose_iff, H; reflexivity.
Qed.
Lemma same_time_iff x y : same_time x y = true <-> exists a, x = Some a /\ y = Some a.
Proof.
  destruct x as [a|], y as [b|]; cbn; split; intro H; try discriminate; try (destruct H as (c & E & F); congruence).
  - apply Z.eqb_eq in H. exists a. split; congruence.
  - destruct H as (c & E & F). apply Z.eqb_eq. congruence.
Qed.
Lemma all_close_iff v w : all_close v w = true <-> near_vals v w.
Proof.
  destruct v as [l|l], w as [m|m]; unfold all_close, near_vals.
  - transitivity (forall2b close_or_null l m = true); [destruct l; reflexivity|]. apply forall2b_iff, close_or_null_iff.
  - destruct l, m; split; try discriminate; try (intros [? ?]; discriminate); auto.
  - destruct l, m; split; try discriminate; try (intros [? ?]; discriminate); auto.
  - transitivity (forall2b same_time l m = true); [destruct l; reflexivity|]. apply forall2b_iff, same_time_iff.
Qed.
Lemma same_field_iff x y : same_field x y = true <-> same_opt x y.
Proof. destruct x, y; cbn; try (split; [discriminate|intros []]); [apply Qeq_bool_iff|tauto]. Qed.
Lemma same_units_iff x y : same_units x y = true <-> x = y.
Proof. destruct x, y; cbn; try (split; [discriminate|congruence]); [rewrite String.eqb_eq; split; congruence|tauto]. Qed.
Lemma approx_iff c d : approx_equal c d = true <-> near_coord c d.
Proof.
  unfold approx_equal, near_coord. rewrite andb_true_iff, (forall2b_eq Z.eqb) by (intros; apply Z.eqb_eq).
  destruct (ec_body c) as [v|a b s], (ec_body d) as [w|a' b' s']; try (split; intros [_ K]; [discriminate|contradiction]).
  - rewrite all_close_iff. reflexivity.
  - rewrite !andb_true_iff, same_units_iff, !same_field_iff. tauto.
Qed.
Lemma aval_eq_iff x y : aval_eq x y = true <-> same_attr x y.
Proof.
  destruct x, y; cbn; try (split; [discriminate|congruence]).
  - rewrite String.eqb_eq. split; congruence.
  - apply Qeq_bool_iff.
  - tauto.
  - rewrite (forall2b_eq String.eqb) by (intros; apply String.eqb_eq). split; congruence.
Qed.
Lemma private_iff n : private n = true <-> exists t, n = String "_"%char t.
Proof.
  unfold private. destruct n as [|c t]; [split; [discriminate|intros [t K]; discriminate]|].
  change (String.prefix "_" (String c t)) with (if ascii_dec "_"%char c then String.prefix "" t else false). destruct (ascii_dec "_"%char c) as [<-|E].
  - destruct t; split; eauto.
  - split; [discriminate|]. intros [u K]. congruence.
Qed.
Lemma public_in p n : In n (public_names p) <-> In n (map fst (ep_coords p)) /\ public p n.
Proof.
  unfold public_names, public. rewrite filter_In, orb_true_iff, has_name_iff, negb_true_iff. split; intros [A B]; (split; [exact A|]); destruct B as [B|B]; auto; right.
  - intro K. apply private_iff in K. congruence.
  - apply not_true_is_false. intro K. apply B, private_iff, K.
Qed.
(** Comparing what is under the names of [l] is comparing what is under all names. *)
Lemma names_iff {A} (f : A -> A -> bool) (R : A -> A -> Prop) (N : string -> Prop) ns ms (l m : list (string * A)) :
  NoDup (map fst l) -> NoDup (map fst m) -> (forall x y, f x y = true <-> R x y) ->
  (forall n, In n ns <-> In n (map fst l) /\ N n) -> (forall n, In n ms <-> In n (map fst m) /\ N n) ->
  ((same_set ns ms && forallb (fun n => match look n l, look n m with Some c, Some d => f c d | _, _ => false end) ns)%bool = true <-> named N R l m).
Proof.
  intros Nl Nm F Hn Hm. rewrite andb_true_iff, same_set_iff, forallb_forall. split.
  - intros [S B] n P. specialize (S n). rewrite Hn, Hm in S. split; [tauto|]. intros x y X Y.
    assert (I : In n ns) by (apply Hn; split; [apply in_map_iff; exists (n, x); auto|exact P]). specialize (B n I).
    apply (look_in n l Nl) in X. apply (look_in n m Nm) in Y. rewrite X, Y in B. apply F, B.
  - intro H. split.
    + intro n. rewrite Hn, Hm. split; intros [I P]; (split; [apply (H n P), I|exact P]).
    + intros n I. apply Hn in I as [I P]. destruct (H n P) as [E K]. pose proof (proj1 E I) as J. apply look_name in I as [x X]. apply look_name in J as [y Y]. rewrite X, Y. apply F, K; [apply (look_in n l Nl), X|apply (look_in n m Nm), Y].
Qed.
Lemma nodup_filter {A} (f : string * A -> bool) l : NoDup (map fst l) -> NoDup (map fst (filter f l)).
Proof.
  induction l as [|x t IH]; cbn; intro N; [constructor|]. inversion N; subst. destruct (f x); [|auto]. cbn. constructor; [|auto].
  intro K. apply H1. apply in_map_iff in K as (y & E & I). apply filter_In in I as [I _]. apply in_map_iff. eauto.
Qed.
Lemma compared_in only l kv : In kv (compared only l) <-> In kv l /\ asked only (fst kv).
Proof.
  unfold compared, asked. destruct only; [rewrite filter_In, has_name_iff; tauto|]. split; [intro I; split; [exact I|discriminate]|tauto].
Qed.
Lemma compared_name only l n : In n (map fst (compared only l)) <-> In n (map fst l) /\ asked only n.
Proof.
  rewrite !in_map_iff. split; [intros (kv & <- & I); apply compared_in in I as [I P]; split; [eauto|exact P]|]. intros [(kv & <- & I) P]. exists kv. split; [reflexivity|apply compared_in; auto].
Qed.
Lemma compared_nodup only l : NoDup (map fst l) -> NoDup (map fst (compared only l)).
Proof. destruct only; cbn; [apply nodup_filter|auto]. Qed.
Lemma attrs_iff only l m : NoDup (map fst l) -> NoDup (map fst m) -> (attrs_equal (compared only l) (compared only m) = true <-> named (asked only) same_attr l m).
Proof.
  intros A B. unfold attrs_equal. rewrite (names_iff aval_eq same_attr (asked only)); [| | | apply aval_eq_iff | |].
  - unfold named. split; intros H n P; destruct (H n P) as [E K].
    + rewrite !compared_name in E. split; [tauto|]. intros x y X Y. apply K; apply compared_in; auto.
    + rewrite !compared_name. split; [tauto|]. intros x y X Y. apply compared_in in X as [X _]. apply compared_in in Y as [Y _]. auto.
  - apply compared_nodup, A.
  - apply compared_nodup, B.
  - intro n. rewrite compared_name. tauto.
  - intro n. rewrite compared_name. tauto.
Qed.

Section Two.
Context (p q : epatch) (P : wf_ep p) (Q' : wf_ep q).
Lemma coords_iff : coords_equal p q = true <-> (forall n, In n (ep_dims p) <-> In n (ep_dims q)) /\ named (public p) near_coord (ep_coords p) (ep_coords q).
Proof.
  unfold coords_equal. rewrite <- andb_assoc, andb_true_iff, same_set_iff. split; intros [D H]; (split; [exact D|]).
  - revert H. apply (names_iff approx_equal near_coord (public p)); [apply (we_coords p P)|apply (we_coords q Q')|apply approx_iff|apply public_in|].
    intro n. rewrite public_in. unfold public. rewrite (D n). reflexivity.
  - revert H. apply (names_iff approx_equal near_coord (public p)); [apply (we_coords p P)|apply (we_coords q Q')|apply approx_iff|apply public_in|].
    intro n. rewrite public_in. unfold public. rewrite (D n). reflexivity.
Qed.
Lemma dims_same only : named (asked only) same_attr (ep_attrs p) (ep_attrs q) -> ep_dims p = ep_dims q.
Proof.
  intro H. destruct (we_dims p P) as (s & Is & ->). destruct (we_dims q Q') as (t & It & ->).
  assert (A : asked only "dims") by (intros _; cbn; tauto). destruct (H _ A) as [_ K]. specialize (K _ _ Is It). cbn in K. injection K as ->. reflexivity.
Qed.
Lemma shape_same : ep_dims p = ep_dims q -> named (public p) near_coord (ep_coords p) (ep_coords q) -> nd_shape (ep_data p) = nd_shape (ep_data q).
Proof.
  intros D H. pose proof (we_shape p P) as A. pose proof (we_shape q Q') as B. rewrite <- D in B.
  assert (U : forall d, In d (ep_dims p) -> public p d) by (intros; left; assumption).
  revert A B U. generalize (ep_dims p) (nd_shape (ep_data p)) (nd_shape (ep_data q)). intros l s t A. revert t.
  induction A as [|d n l s (c & I & E) A IH]; intros t B U; inversion B as [|? m ? t' (c' & I' & E') B' ]; subst; [reflexivity|]. f_equal.
  - destruct (H d (U d (or_introl eq_refl))) as [_ K]. destruct (K c c' I I') as [S _]. congruence.
  - apply IH; [exact B'|]. intros x X. apply U. right. exact X.
Qed.
Lemma value_iff (close : bool) x y : (if close then close_value else same_value) x y = true <-> exists a b, x = Some a /\ y = Some b /\ eqrel close a b.
Proof.
  unfold eqrel. destruct close, x as [a|], y as [b|]; cbn; (split; intro H; [|destruct H as (a' & b' & X & Y & R)]); try discriminate.
  - exists a, b. split; [reflexivity|]. split; [reflexivity|]. apply isclose_iff, H.
  - injection X as <-. injection Y as <-. apply isclose_iff, R.
  - exists a, b. split; [reflexivity|]. split; [reflexivity|]. apply Qeq_bool_iff, H.
  - injection X as <-. injection Y as <-. apply Qeq_bool_iff, R.
Qed.
Lemma equals_ok only (close : bool) : exists b, pt_equals p (Some q) only close = Ok b /\ (b = true <-> alike p q only (eqrel close)).
Proof.
  unfold pt_equals, alike. destruct (coords_equal p q) eqn:C.
  2:{ exists false. split; [reflexivity|]. split; [discriminate|]. intros (D & H & _). exfalso. assert (coords_equal p q = true); [|congruence]. apply coords_iff. split; [rewrite D; tauto|exact H]. }
  apply coords_iff in C as [_ C]. cbn [negb]. destruct (attrs_equal _ _) eqn:A.
  2:{ exists false. split; [reflexivity|]. split; [discriminate|]. intros (_ & _ & H & _). exfalso. apply (attrs_iff only _ _ (we_attrs p P) (we_attrs q Q')) in H. congruence. }
  apply (attrs_iff only _ _ (we_attrs p P) (we_attrs q Q')) in A. cbn [negb]. pose proof (dims_same only A) as D. pose proof (shape_same D C) as S. unfold data_equal.
  rewrite (proj2 (forall2b_eq Z.eqb _ _ Z.eqb_eq) S). eexists. split; [reflexivity|]. rewrite (forall2b_iff _ _ _ _ (value_iff close)). tauto.
Qed.
End Two.

Lemma near_refl x : near x x.
Proof. unfold near. assert (E : (Qabs (x - x) == 0)%Q) by (setoid_replace (x - x)%Q with 0%Q by ring; reflexivity). rewrite E. pose proof (Qabs_nonneg x). lra. Qed.
Lemma nodup_one {A} (l : list (string * A)) n x y : NoDup (map fst l) -> In (n, x) l -> In (n, y) l -> x = y.
Proof. intros N X Y. apply (look_in n l N) in X. apply (look_in n l N) in Y. congruence. Qed.
Lemma same_opt_refl x : same_opt x x.
Proof. destruct x; cbn; reflexivity || exact I. Qed.
Lemma self_ok p only (close : bool) : wf_ep p -> (pt_equals p (Some p) only close = Ok true <-> settled p).
Proof.
  intro W. destruct (equals_ok p p W W only close) as (b & E & H). rewrite E. transitivity (b = true); [split; congruence|]. rewrite H. unfold alike, settled. split.
  - intros (_ & C & _ & _ & D). split.
    + intros v I ->. clear -D I. revert I D. generalize (nd_flat (ep_data p)). intros l I D. apply In_nth_error in I as [k K].
      assert (G : forall (l m : list (option Q)) k, Forall2 (fun x y => exists a b, x = Some a /\ y = Some b /\ eqrel close a b) l m -> nth_error l k <> Some None).
      { induction l0 as [|x t IH]; intros m k' F; destruct k'; cbn; try discriminate; inversion F; subst; [destruct H1 as (a & b & -> & _); discriminate|]. eapply IH, H3. }
      exact (G _ _ _ D K).
    + intros n c l Pn I B t It ->. destruct (C n Pn) as [_ K]. specialize (K c c I I). destruct K as [_ K]. rewrite B in K. cbn in K.
      revert It K. generalize l at 3. clear. intros m It K. induction K as [|x y l m (a & -> & _) K IH]; [exact It|]. destruct It as [It|It]; [discriminate|exact (IH It)].
  - intros [A B]. split; [reflexivity|]. split.
    { intros n Pn. split; [tauto|]. intros c d I J. rewrite <- (nodup_one _ _ _ _ (we_coords p W) I J). split; [reflexivity|]. destruct (ec_body c) as [[l|l]|a b' s] eqn:Eb.
      - cbn. clear. induction l; constructor; [|exact IHl]. intros x y X Y. rewrite X in Y. injection Y as <-. apply near_refl.
      - cbn. specialize (B n c l Pn I Eb). clear -B. induction l as [|x t IH]; constructor; [|apply IH; intros; apply B; right; assumption]. destruct x as [x|]; [eauto|]. exfalso. exact (B None (or_introl eq_refl) eq_refl).
      - split; [reflexivity|]. split; [apply same_opt_refl|]. split; apply same_opt_refl. }
    split. { intros n _. split; [tauto|]. intros x y I J. rewrite <- (nodup_one _ _ _ _ (we_attrs p W) I J). destruct x; cbn; reflexivity. }
    split; [reflexivity|]. clear -A. induction (nd_flat (ep_data p)) as [|x t IH]; constructor; [|apply IH; intros; apply A; right; assumption].
    destruct x as [x|]; [|exfalso; exact (A None (or_introl eq_refl) eq_refl)]. exists x, x. split; [reflexivity|]. split; [reflexivity|]. destruct close; [apply near_refl|apply Qeq_refl].
Qed.
(** Both ways when the coordinates are exactly the same. *)
Lemma equals_sym p q only : wf_ep p -> wf_ep q -> named (public p) (fun c d => c = d) (ep_coords p) (ep_coords q) ->
  pt_equals p (Some q) only false = Ok true -> pt_equals q (Some p) only false = Ok true.
Proof.
  intros P Q' X E. destruct (equals_ok p q P Q' only false) as (b & Eb & H). rewrite E in Eb. injection Eb as <-. destruct H as [H _]. specialize (H eq_refl).
  destruct (equals_ok q p Q' P only false) as (b & Eb & G). rewrite Eb. f_equal. apply G. destruct H as (D & C & A & S & F).
  split; [congruence|]. split.
  { intros n Pn. assert (Pn' : public p n) by (unfold public in *; rewrite D; exact Pn). destruct (C n Pn') as [N K]. split; [tauto|]. intros c d I J. destruct (X n Pn') as [_ K']. specialize (K' d c J I). subst d. apply (K c c J I). }
  split. { intros n Pn. destruct (A n Pn) as [N K]. split; [tauto|]. intros c d I J. specialize (K d c J I). destruct c, d; cbn in *; try (symmetry; exact K); congruence. }
  split; [congruence|]. cbn [eqrel] in *. clear -F. induction F as [|x y l m (a & b & -> & -> & R) F IH]; constructor; [|exact IH]. exists b, a. split; [reflexivity|]. split; [reflexivity|]. symmetry. exact R.
Qed.

Lemma weaker p q only : wf_ep p -> wf_ep q -> pt_equals p (Some q) only false = Ok true -> pt_equals p (Some q) only true = Ok true.
Proof.
  intros P Q' E. destruct (equals_ok p q P Q' only false) as (b & Eb & H). rewrite E in Eb. injection Eb as <-. destruct H as [H _]. specialize (H eq_refl).
  destruct (equals_ok p q P Q' only true) as (b & Eb & G). rewrite Eb. f_equal. apply G. destruct H as (D & C & A & S & F). split; [exact D|]. split; [exact C|]. split; [exact A|]. split; [exact S|].
  revert F. clear. generalize (nd_flat (ep_data p)) (nd_flat (ep_data q)). intros l m F. induction F as [|x y l m (a & b & -> & -> & R) F IH]; constructor; [|exact IH]. exists a, b. split; [reflexivity|]. split; [reflexivity|].
  cbn [eqrel] in *. unfold near. assert (E : (Qabs (a - b) == 0)%Q) by (rewrite R; setoid_replace (b - b)%Q with 0%Q by ring; reflexivity). rewrite E. pose proof (Qabs_nonneg b). lra.
Qed.
Lemma fewer p q close : wf_ep p -> wf_ep q -> pt_equals p (Some q) false close = Ok true -> pt_equals p (Some q) true close = Ok true.
Proof.
  intros P Q' E. destruct (equals_ok p q P Q' false close) as (b & Eb & H). rewrite E in Eb. injection Eb as <-. destruct H as [H _]. specialize (H eq_refl).
  destruct (equals_ok p q P Q' true close) as (b & Eb & G). rewrite Eb. f_equal. apply G. destruct H as (D & C & A & S & F). split; [exact D|]. split; [exact C|]. split; [|tauto].
  intros n _. apply A. intro K. discriminate.
Qed.
