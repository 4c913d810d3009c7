(** Facts about N-dimensional arrays: an array is determined by its shape and
    its elements at the multi-indices within bounds. *)
From Verif Require Import Base BaseFacts NdModel NdSpec.
From Coq Require Import ZifyBool.
Ltac Zify.zify_post_hook ::= Z.div_mod_to_equations.

Lemma size_cons n s : size (n :: s) = n * size s.
Proof. reflexivity. Qed.

Lemma inb_size s ix : inb s ix -> 0 < size s.
Proof.
  induction 1 as [|n i s r H F IH]; [cbn; lia|]. rewrite size_cons. nia.
Qed.

Lemma ravel_inb s : forall ix, (exists k, ravel s ix = Some k) <-> inb s ix.
Proof.
  induction s as [|n s IH]; intros [|i r]; cbn [ravel].
  - split; [constructor|]. exists 0; reflexivity.
  - split; [intros [k H]; discriminate|intros H; inversion H].
  - split; [intros [k H]; discriminate|intros H; inversion H].
  - split.
    + intros [k H]. destruct ((0 <=? i) && (i <? n)) eqn:E; [|discriminate].
      destruct (ravel s r) as [j|] eqn:R; [|discriminate].
      constructor; [lia|]. apply IH. exists j; exact R.
    + intros H. inversion H; subst. destruct ((0 <=? i) && (i <? n)) eqn:E; [|lia].
      destruct (proj2 (IH r) H5) as [j R]. rewrite R. eexists; reflexivity.
Qed.

Lemma ravel_range s : forall ix k, ravel s ix = Some k -> 0 <= k < size s.
Proof.
  induction s as [|n s IH]; intros [|i r] k; cbn [ravel]; try discriminate.
  - intros [= <-]. cbn; lia.
  - destruct ((0 <=? i) && (i <? n)) eqn:E; [|discriminate].
    destruct (ravel s r) as [j|] eqn:R; [|discriminate].
    intros [= <-]. specialize (IH _ _ R). rewrite size_cons. nia.
Qed.

Lemma zlen_flat_map {A B} (f : A -> list B) m l :
  (forall x, In x l -> zlen (f x) = m) -> zlen (flat_map f l) = zlen l * m.
Proof.
  induction l as [|x l IH]; intros H; [cbn; lia|].
  cbn [flat_map]. rewrite zlen_app, zlen_cons, (H x (or_introl eq_refl)), IH; [lia|].
  intros y Hy. apply H. right; exact Hy.
Qed.

Lemma znth_flat_map {A B} (f : A -> list B) m l k y :
  (forall x, In x l -> zlen (f x) = m) ->
  znth (flat_map f l) k = Some y <->
  exists i j x, znth l i = Some x /\ znth (f x) j = Some y /\ k = i * m + j.
Proof.
  revert k. induction l as [|x l IH]; intros k H.
  - cbn [flat_map]. split.
    + rewrite znth_nil. discriminate.
    + intros (i & j & x & E & _). rewrite znth_nil in E. discriminate.
  - cbn [flat_map]. rewrite znth_app, (H x (or_introl eq_refl)).
    assert (Hl : forall x0, In x0 l -> zlen (f x0) = m) by (intros; apply H; right; assumption).
    destruct (k <? m) eqn:L.
    + split.
      * intros E. exists 0, k, x. split; [reflexivity|]. split; [exact E|lia].
      * intros (i & j & x' & E1 & E2 & ->).
        pose proof (znth_some _ _ _ E1) as Hi. pose proof (znth_some _ _ _ E2) as Hj.
        rewrite znth_cons in E1. destruct (i =? 0) eqn:Ei.
        -- injection E1 as <-. replace (i * m + j) with j by nia. exact E2.
        -- rewrite (Hl x') in Hj; [|eapply znth_in; exact E1].
           rewrite zlen_cons in Hi. exfalso. nia.
    + rewrite IH by exact Hl. split.
      * intros (i & j & x' & E1 & E2 & E3). exists (i + 1), j, x'.
        pose proof (znth_some _ _ _ E1).
        split; [|split; [exact E2|nia]].
        rewrite znth_cons. destruct (i + 1 =? 0) eqn:E; [lia|].
        replace (i + 1 - 1) with i by lia. exact E1.
      * intros (i & j & x' & E1 & E2 & ->).
        pose proof (znth_some _ _ _ E1) as Hi. pose proof (znth_some _ _ _ E2) as Hj.
        rewrite znth_cons in E1. destruct (i =? 0) eqn:Ei.
        -- injection E1 as <-. rewrite (H x (or_introl eq_refl)) in Hj. exfalso; nia.
        -- exists (i - 1), j, x'. split; [exact E1|]. split; [exact E2|]. nia.
Qed.

Lemma zlen_all_ix s : Forall (fun n => 0 <= n) s -> zlen (all_ix s) = size s.
Proof.
  induction 1 as [|n s Hn Hs IH]; [reflexivity|].
  cbn [all_ix]. rewrite (zlen_flat_map _ (size s)).
  - rewrite zlen_zrange, size_cons. replace (Z.max 0 n) with n by lia. reflexivity.
  - intros i _. rewrite zlen_map. exact IH.
Qed.

Lemma znth_all_ix s : Forall (fun n => 0 <= n) s -> forall k ix,
  znth (all_ix s) k = Some ix <-> ravel s ix = Some k.
Proof.
  induction 1 as [|n s Hn Hs IH]; intros k ix.
  - cbn [all_ix]. split.
    + rewrite znth_cons. destruct (k =? 0) eqn:E.
      * intros [= <-]. cbn. f_equal; lia.
      * rewrite znth_nil. discriminate.
    + destruct ix; cbn [ravel]; [|discriminate]. intros [= <-]. reflexivity.
  - cbn [all_ix]. rewrite (znth_flat_map _ (size s)).
    2: { intros i _. rewrite zlen_map. apply zlen_all_ix; exact Hs. }
    split.
    + intros (i & j & x & E1 & E2 & ->). rewrite znth_zrange in E1.
      destruct ((0 <=? i) && (i <? n)) eqn:E; [|discriminate]. injection E1 as <-.
      rewrite znth_map in E2. destruct (znth (all_ix s) j) as [r|] eqn:R; [|discriminate].
      cbn in E2. injection E2 as <-. cbn [ravel]. rewrite E.
      apply IH in R. rewrite R. reflexivity.
    + destruct ix as [|i r]; cbn [ravel]; [discriminate|].
      destruct ((0 <=? i) && (i <? n)) eqn:E; [|discriminate].
      destruct (ravel s r) as [j|] eqn:R; [|discriminate]. intros [= <-].
      exists i, j, i. split; [rewrite znth_zrange, E; reflexivity|].
      split; [|reflexivity]. rewrite znth_map. apply IH in R. rewrite R. reflexivity.
Qed.

Lemma in_all_ix s ix : Forall (fun n => 0 <= n) s -> In ix (all_ix s) <-> inb s ix.
Proof.
  intros H. rewrite <- ravel_inb. split.
  - intros I. apply in_znth in I. destruct I as [k I]. exists k. apply znth_all_ix; assumption.
  - intros [k R]. apply (znth_in _ k). apply znth_all_ix; assumption.
Qed.

Lemma inb_nonneg s ix : inb s ix -> Forall (fun n => 0 <= n) s.
Proof. induction 1; constructor; [lia|assumption]. Qed.

Lemma inb_length s ix : inb s ix -> length ix = length s.
Proof. induction 1; cbn; congruence. Qed.

(** ** Building *)
Lemma traverse_spec {A B} (f : A -> option B) l r : traverse f l = Some r ->
  zlen r = zlen l /\ forall i x, znth l i = Some x -> exists y, f x = Some y /\ znth r i = Some y.
Proof.
  revert r. induction l as [|x l IH]; intros r; cbn [traverse].
  - intros [= <-]. split; [reflexivity|]. intros i y. rewrite znth_nil; discriminate.
  - destruct (f x) as [y|] eqn:F; [|discriminate].
    destruct (traverse f l) as [t|]; [|discriminate]. intros [= <-].
    destruct (IH t eq_refl) as [L N]. split; [rewrite !zlen_cons; lia|].
    intros i z. rewrite !znth_cons. destruct (i =? 0).
    + intros [= <-]. exists y. split; [exact F|reflexivity].
    + apply N.
Qed.

Lemma traverse_total {A B} (f : A -> option B) l :
  (forall x, In x l -> exists y, f x = Some y) -> exists r, traverse f l = Some r.
Proof.
  induction l as [|x l IH]; intros H; [eexists; reflexivity|]. cbn [traverse].
  destruct (H x (or_introl eq_refl)) as [y ->].
  destruct IH as [r ->]; [intros; apply H; right; assumption|]. eexists; reflexivity.
Qed.

Lemma traverse_none {A B} (f : A -> option B) l x :
  In x l -> f x = None -> traverse f l = None.
Proof.
  induction l as [|y l IH]; [intros []|]. intros [->|H] E; cbn [traverse].
  - rewrite E. reflexivity.
  - destruct (f y); [|reflexivity]. rewrite IH by assumption. reflexivity.
Qed.

Lemma nd_build_spec {A} s (f : list Z -> option A) a : Forall (fun n => 0 <= n) s ->
  nd_build s f = Some a ->
  nd_shape a = s /\ wf_nd a /\
  (forall ix, inb s ix -> exists x, f ix = Some x /\ nd_get a ix = Some x).
Proof.
  unfold nd_build. intros P H. destruct (traverse f (all_ix s)) as [l|] eqn:T; [|discriminate].
  injection H as <-. destruct (traverse_spec _ _ _ T) as [L N].
  split; [reflexivity|]. split.
  - split; cbn; [exact P|]. rewrite L. apply zlen_all_ix; exact P.
  - intros ix B. pose proof B as R. apply ravel_inb in R. destruct R as [k R].
    apply (proj2 (znth_all_ix s P k ix)) in R as I. destruct (N _ _ I) as (y & F & Z).
    exists y. split; [exact F|]. unfold nd_get. cbn. rewrite R. exact Z.
Qed.

Lemma nd_build_total {A} s (f : list Z -> option A) : Forall (fun n => 0 <= n) s ->
  (forall ix, inb s ix -> exists x, f ix = Some x) -> exists a, nd_build s f = Some a.
Proof.
  intros P H. destruct (traverse_total f (all_ix s)) as [l E].
  - intros ix I. apply H. apply in_all_ix; assumption.
  - exists (mkNd s l). unfold nd_build. rewrite E. reflexivity.
Qed.

Lemma nd_get_inb {A} (a : nd A) ix x : nd_get a ix = Some x -> inb (nd_shape a) ix.
Proof.
  unfold nd_get. destruct (ravel (nd_shape a) ix) as [k|] eqn:R; [|discriminate].
  intros _. apply ravel_inb. exists k; exact R.
Qed.

Lemma nd_get_total {A} (a : nd A) ix : wf_nd a -> inb (nd_shape a) ix ->
  exists x, nd_get a ix = Some x.
Proof.
  intros [P L] B. apply ravel_inb in B. destruct B as [k R]. unfold nd_get. rewrite R.
  apply znth_range. rewrite L. apply (ravel_range _ _ _ R).
Qed.

Lemma nd_ext {A} (a b : nd A) : wf_nd a -> wf_nd b -> nd_shape a = nd_shape b ->
  (forall ix, inb (nd_shape a) ix -> nd_get a ix = nd_get b ix) -> a = b.
Proof.
  destruct a as [s la], b as [s' lb]. unfold wf_nd, nd_get. cbn.
  intros [P La] [_ Lb] <- H. f_equal. apply znth_ext. intros k.
  destruct (Z.ltb_spec k 0); [|destruct (Z.ltb_spec k (size s))].
  - rewrite (proj2 (znth_none la k)), (proj2 (znth_none lb k)) by lia. reflexivity.
  - assert (exists ix, znth (all_ix s) k = Some ix) as [ix I].
    { apply znth_range. rewrite zlen_all_ix by exact P. lia. }
    apply znth_all_ix in I; [|exact P]. specialize (H ix). rewrite I in H.
    apply H. apply ravel_inb. exists k; exact I.
  - fold (size s) in La, Lb. rewrite (proj2 (znth_none la k)), (proj2 (znth_none lb k)) by lia. reflexivity.
Qed.

(** ** put *)
Lemma put_length {A} (l : list A) n x : length (put l n x) = length l.
Proof. revert n. induction l; intros [|n]; cbn; congruence. Qed.

Lemma nth_put_same {A} (l : list A) n x : (n < length l)%nat -> nth_error (put l n x) n = Some x.
Proof. revert n. induction l; intros [|n] H; cbn in *; try lia; auto. apply IHl. lia. Qed.

Lemma nth_put_other {A} (l : list A) n m x : n <> m -> nth_error (put l n x) m = nth_error l m.
Proof.
  revert n m. induction l; intros [|n] [|m] H; cbn; try congruence; auto.
Qed.

Lemma put_put {A} (l : list A) n x y : put (put l n x) n y = put l n y.
Proof. revert n. induction l; intros [|n]; cbn; congruence. Qed.

Lemma put_nth {A} (l : list A) n x : nth_error l n = Some x -> put l n x = l.
Proof. revert n. induction l; intros [|n]; cbn; try congruence. intros H. f_equal. auto. Qed.

Lemma list_ext {A} (a b : list A) : (forall n, nth_error a n = nth_error b n) -> a = b.
Proof.
  revert b. induction a as [|x a IH]; intros [|y b] H.
  - reflexivity.
  - specialize (H O). discriminate.
  - specialize (H O). discriminate.
  - pose proof (H O) as E. cbn in E. injection E as ->. f_equal. apply IH.
    intros n. apply (H (S n)).
Qed.

Lemma inb_nth s ix : inb s ix <->
  length s = length ix /\ forall n m i, nth_error s n = Some m -> nth_error ix n = Some i -> 0 <= i < m.
Proof.
  split.
  - intros H. split; [symmetry; apply inb_length; exact H|].
    induction H as [|m i s r B F IH]; intros [|n] m' i'; cbn; try discriminate.
    + intros [= <-] [= <-]. exact B.
    + apply IH.
  - revert ix. induction s as [|m s IH]; intros [|i r] [L H]; cbn in L; try discriminate; constructor.
    + apply (H O); reflexivity.
    + apply IH. split; [congruence|]. intros n. apply (H (S n)).
Qed.

Lemma put_nonneg s n m : Forall (fun k => 0 <= k) s -> 0 <= m -> Forall (fun k => 0 <= k) (put s n m).
Proof.
  intros H Hm. revert n. induction H; intros [|n]; cbn; constructor; auto.
Qed.

(** Replacing one position of a multi-index. *)
Lemma inb_put s ix n m p : inb (put s n m) ix -> forall k, nth_error s n = Some k -> 0 <= p < k ->
  inb s (put ix n p).
Proof.
  intros I k K P. apply inb_nth in I. destruct I as [L H]. apply inb_nth.
  split; [rewrite put_length, <- L, put_length; reflexivity|].
  intros j a b A B. destruct (Nat.eq_dec j n) as [->|N].
  - rewrite nth_put_same in B.
    + injection B as <-. congruence.
    + rewrite <- L, put_length. apply nth_error_Some. congruence.
  - rewrite nth_put_other in B by congruence. apply (H j); [rewrite nth_put_other by congruence|]; assumption.
Qed.

(** ** take *)
Lemma nd_take_spec {A} (a b : nd A) ax ps n : wf_nd a -> nth_error (nd_shape a) ax = Some n ->
  nd_take a ax ps = Some b ->
  nd_shape b = put (nd_shape a) ax (zlen ps) /\ wf_nd b /\
  forall ix i p, inb (nd_shape b) ix -> nth_error ix ax = Some i -> znth ps i = Some p ->
    nd_get b ix = nd_get a (put ix ax p).
Proof.
  intros W N. unfold nd_take. rewrite N. intros B.
  apply nd_build_spec in B. 2: { apply put_nonneg; [apply W|apply zlen_nonneg]. }
  destruct B as (S & Wb & G). split; [exact S|]. split; [exact Wb|].
  intros ix i p I E P. rewrite S in I. destruct (G ix I) as (x & F & ->).
  rewrite E, P in F. symmetry; exact F.
Qed.

Lemma nd_take_total {A} (a : nd A) ax ps n : wf_nd a -> nth_error (nd_shape a) ax = Some n ->
  (forall p, In p ps -> 0 <= p < n) -> exists b, nd_take a ax ps = Some b.
Proof.
  intros W N H. unfold nd_take. rewrite N. apply nd_build_total.
  - apply put_nonneg; [apply W|apply zlen_nonneg].
  - intros ix I. assert (L : (ax < length (nd_shape a))%nat) by (apply nth_error_Some; congruence).
    assert (exists i, nth_error ix ax = Some i) as [i Ei].
    { destruct (nth_error ix ax) eqn:E; [eexists; reflexivity|].
      apply nth_error_None in E. apply inb_length in I. rewrite put_length in I. lia. }
    rewrite Ei.
    assert (0 <= i < zlen ps) as Hi.
    { apply inb_nth in I. destruct I as [_ I]. apply (I ax); [|exact Ei].
      apply nth_put_same. exact L. }
    destruct (proj2 (znth_range ps i) Hi) as [p P]. rewrite P.
    apply nd_get_total; [exact W|]. eapply inb_put; [exact I|exact N|].
    apply H. eapply znth_in; exact P.
Qed.

Lemma nd_take_bad {A} (a : nd A) ax ps n p : wf_nd a -> nth_error (nd_shape a) ax = Some n ->
  In p ps -> ~ 0 <= p < n -> 0 < size (put (nd_shape a) ax 1) -> nd_take a ax ps = None.
Proof.
  intros W N I B Z. unfold nd_take. rewrite N. unfold nd_build.
  assert (L : (ax < length (nd_shape a))%nat) by (apply nth_error_Some; congruence).
  apply in_znth in I. destruct I as [i P]. pose proof (znth_some _ _ _ P) as Hi.
  assert (Hz : Forall (fun k => 0 < k) (put (nd_shape a) ax 1)).
  { assert (F : Forall (fun k => 0 <= k) (put (nd_shape a) ax 1)).
    { apply put_nonneg; [apply W|lia]. }
    clear - F Z. induction F as [|m s Hm F IH]; constructor; rewrite size_cons in Z.
    - destruct (Z.eq_dec m 0) as [->|]; lia.
    - apply IH. nia. }
  set (ix := put (map (fun _ => 0) (nd_shape a)) ax i).
  rewrite (traverse_none _ _ ix); [reflexivity| |].
  - apply in_all_ix; [apply put_nonneg; [apply W|apply zlen_nonneg]|].
    apply inb_nth. unfold ix. split; [rewrite !put_length, map_length; reflexivity|].
    intros j m k. destruct (Nat.eq_dec j ax) as [->|Hj].
    + rewrite !nth_put_same by (rewrite ?map_length; exact L). intros [= <-] [= <-]. exact Hi.
    + rewrite !nth_put_other by congruence. rewrite nth_error_map.
      destruct (nth_error (nd_shape a) j) as [q|] eqn:Q; [|discriminate].
      intros [= <-] [= <-]. split; [lia|].
      rewrite Forall_forall in Hz. apply Hz. apply (nth_error_In _ j).
      rewrite nth_put_other by congruence. exact Q.
  - unfold ix. rewrite nth_put_same by (rewrite map_length; exact L). rewrite P.
    destruct (nd_get a _) eqn:G; [|reflexivity]. exfalso. apply nd_get_inb in G.
    rewrite put_put in G. apply inb_nth in G. destruct G as [_ G].
    specialize (G ax n p N). rewrite nth_put_same in G by (rewrite map_length; exact L).
    apply B, G. reflexivity.
Qed.
