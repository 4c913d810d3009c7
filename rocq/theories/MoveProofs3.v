(** Lemmas behind MoveProps.v: medians over boxes, outliers (C82, C83). *)
From Verif Require Import Base BaseFacts CoordModel NdModel NdSpec NdProofs FrameModel ChunkModel
  CmModel TaperProofs2 ReadProofs MuteModel CalcModel CalcProofs MoveModel MoveSpec MoveProofs MoveProofs2.
From Coq Require Import Strings.String ZifyBool QArith Qabs Lqa Sorting.Permutation Sorting.Sorted.
Local Open Scope Z_scope.
Local Open Scope list_scope.

Lemma flat_get {A} (a : nd A) x : wf_nd a -> In x (nd_flat a) -> exists ix, inb (nd_shape a) ix /\ nd_get a ix = Some x.
Proof.
  intros [P L] I. apply in_znth in I. destruct I as [k K]. assert (B : 0 <= k < size (nd_shape a)) by (rewrite <- L; apply znth_range; eauto).
  destruct (proj2 (znth_range (all_ix (nd_shape a)) k)) as [ix E]; [rewrite zlen_all_ix by exact P; exact B|].
  apply (znth_all_ix _ P) in E. exists ix. split; [apply ravel_inb; eauto|]. unfold nd_get. rewrite E. exact K.
Qed.
Lemma get_flat {A} (a : nd A) ix x : nd_get a ix = Some x -> In x (nd_flat a).
Proof. unfold nd_get. destruct (ravel (nd_shape a) ix); [|discriminate]. apply znth_in. Qed.
Lemma ranked_in l k v : ranked l k v -> In v l.
Proof. intros (s & P & _ & E). apply (Permutation_in _ (Permutation_sym P)). eapply znth_in, E. Qed.

(** ** Boxes *)
Definition around (ix sizes ox : list Z) : list Z :=
  map (fun e => fst (fst e) - snd (fst e) / 2 + snd e) (combine (combine ix sizes) ox).
Lemma flat_map_map {A B C} (f : A -> B) (g : B -> list C) l : flat_map g (map f l) = flat_map (fun x => g (f x)) l.
Proof. induction l as [|x t IH]; [reflexivity|]. cbn. rewrite IH. reflexivity. Qed.
Lemma map_flat_map {A B C} (f : B -> C) (g : A -> list B) l : map f (flat_map g l) = flat_map (fun x => map f (g x)) l.
Proof. induction l as [|x t IH]; [reflexivity|]. cbn. rewrite map_app, IH. reflexivity. Qed.
Lemma flat_map_same {A B} (f g : A -> list B) l : (forall x, f x = g x) -> flat_map f l = flat_map g l.
Proof. intros H. induction l as [|x t IH]; [reflexivity|]. cbn. rewrite H, IH. reflexivity. Qed.
Lemma box_positions_eq sizes : forall ix, List.length ix = List.length sizes ->
  box_positions sizes ix = map (around ix sizes) (all_ix sizes).
Proof.
  unfold box_positions. induction sizes as [|w t IH]; intros [|i ix] L; try discriminate; [reflexivity|].
  cbn [combine map cart all_ix fst snd]. rewrite IH by (cbn in L; lia). unfold centred.
  rewrite flat_map_map, map_flat_map. apply flat_map_same. intros k. rewrite !map_map. apply map_ext. intros ox.
  unfold around. cbn [combine map fst snd]. f_equal. lia.
Qed.
Lemma around_len ix sizes ox : List.length ix = List.length sizes -> List.length ox = List.length sizes -> List.length (around ix sizes ox) = List.length sizes.
Proof. intros A B. unfold around. rewrite map_length, !combine_length. lia. Qed.

Lemma traverse_nth {A B} (f : A -> option B) l r : traverse f l = Some r -> forall d x, nth_error l d = Some x -> exists y, f x = Some y /\ nth_error r d = Some y.
Proof.
  revert r. induction l as [|z l IH]; intros r; cbn [traverse].
  - intros _ [|d]; discriminate.
  - destruct (f z) as [y|] eqn:F; [|discriminate]. destruct (traverse f l) as [t|]; [|discriminate]. intros [= <-] [|d] x; cbn.
    + intros [= <-]. eauto.
    + apply IH. reflexivity.
Qed.
Lemma traverse_len {A B} (f : A -> option B) l r : traverse f l = Some r -> List.length r = List.length l.
Proof. intros H. apply traverse_spec in H. destruct H as [H _]. unfold zlen in H. lia. Qed.
Lemma traverse_bad {A B} (f : A -> option B) l : traverse f l = None -> exists x, In x l /\ f x = None.
Proof.
  induction l as [|z l IH]; cbn [traverse]; [discriminate|]. destruct (f z) as [y|] eqn:F; [|intros _; exists z; split; [left; reflexivity|exact F]].
  destruct (traverse f l) as [t|]; [discriminate|]. intros _. destruct (IH eq_refl) as (x & I & E). exists x. split; [right; exact I|exact E].
Qed.
Lemma nth_combine {A B} (l : list A) (m : list B) d x y : nth_error l d = Some x -> nth_error m d = Some y -> nth_error (combine l m) d = Some (x, y).
Proof. revert m d. induction l as [|z l IH]; intros [|u m] [|d]; try discriminate; cbn; [congruence|apply IH]. Qed.
Lemma nth_combine_inv {A B} (l : list A) (m : list B) d x y : nth_error (combine l m) d = Some (x, y) -> nth_error l d = Some x /\ nth_error m d = Some y.
Proof. revert m d. induction l as [|z l IH]; intros [|u m] [|d]; try discriminate; cbn; [intros [= <- <-]; auto|apply IH]. Qed.

Lemma box_read_ok md cval a jx : wf_nd a -> Forall (fun n => 0 < n) (nd_shape a) -> List.length jx = List.length (nd_shape a) ->
  exists v, box_read md cval a jx = Some v /\ continued_nd md cval a jx v.
Proof.
  intros W P L. unfold box_read. destruct (traverse (fun e => border md (fst e) (snd e)) (combine (nd_shape a) jx)) as [kx|] eqn:T.
  - assert (LK : List.length kx = List.length (nd_shape a)) by (rewrite (traverse_len _ _ _ T), combine_length; lia).
    assert (H : forall d n j, nth_error (nd_shape a) d = Some n -> nth_error jx d = Some j -> exists k, nth_error kx d = Some k /\ copy_of md n j k).
    { intros d n j Ed Ej. destruct (traverse_nth _ _ _ T d (n, j) (nth_combine _ _ _ _ _ Ed Ej)) as (k & E & K). exists k. split; [exact K|].
      apply border_copy; [|exact E]. rewrite Forall_forall in P. apply P. eapply nth_error_In, Ed. }
    assert (I : inb (nd_shape a) kx).
    { apply inb_nth. split; [symmetry; exact LK|]. intros d n k Ed Ek. destruct (nth_error jx d) as [j|] eqn:Ej.
      - destruct (H d n j Ed Ej) as (k' & Ek' & C & _). congruence.
      - apply nth_error_None in Ej. assert (d < List.length (nd_shape a))%nat by (apply nth_error_Some; congruence). lia. }
    destruct (nd_get_total a kx W I) as [v E]. exists v. split; [exact E|]. left. exists kx. auto.
  - exists cval. split; [reflexivity|]. right. apply traverse_bad in T. destruct T as ([n j] & I & E). apply border_none in E. cbn [fst snd] in E.
    destruct E as [-> E]. split; [reflexivity|]. split; [|reflexivity]. intros C. apply In_nth_error in I. destruct I as [d D].
    apply nth_combine_inv in D. destruct D as [D1 D2]. apply inb_nth in C. destruct C as [_ C]. apply E. eapply C; eassumption.
Qed.

Lemma inb_pos s ix : inb s ix -> Forall (fun n => 0 < n) s.
Proof. induction 1; constructor; auto; lia. Qed.
Lemma size_pos s : Forall (fun n => 1 <= n) s -> 1 <= size s.
Proof. induction 1; cbn; [lia|]. change (fold_right Z.mul 1 l) with (size l). nia. Qed.

Lemma box_median_ok md cval sizes a : wf_nd a -> List.length sizes = List.length (nd_shape a) -> Forall (fun w => 1 <= w) sizes ->
  exists b, box_median md cval sizes a = Some b /\ box_medians md cval sizes a b.
Proof.
  intros W L P. assert (P0 : Forall (fun n => 0 <= n) sizes) by (eapply Forall_impl; [|exact P]; cbv beta; intros; lia).
  assert (G : forall ix, inb (nd_shape a) ix -> exists w, nd_build sizes (fun ox => box_read md cval a (around ix sizes ox)) = Some w /\
    traverse (box_read md cval a) (box_positions sizes ix) = Some (nd_flat w)).
  { intros ix I. destruct (nd_build_total sizes (fun ox => box_read md cval a (around ix sizes ox)) P0) as [w E].
    - intros ox O. destruct (box_read_ok md cval a (around ix sizes ox) W (inb_pos _ _ I)) as (v & Ev & _); [|eauto].
      rewrite around_len; [exact L| |]. rewrite (inb_length _ _ I). symmetry; exact L. rewrite (inb_length _ _ O). reflexivity.
    - exists w. split; [exact E|]. unfold nd_build in E. rewrite box_positions_eq by (rewrite (inb_length _ _ I); symmetry; exact L).
      assert (T : forall l, traverse (box_read md cval a) (map (around ix sizes) l) = traverse (fun ox => box_read md cval a (around ix sizes ox)) l).
      { induction l as [|x t IH]; [reflexivity|]. cbn [map traverse]. rewrite IH. reflexivity. }
      rewrite T. destruct (traverse (fun ox => box_read md cval a (around ix sizes ox)) (all_ix sizes)); [|discriminate]. injection E as <-. reflexivity. }
  unfold box_median. match goal with |- context [nd_build ?s ?g] => destruct (nd_build_total s g) as [b Eb] end.
  - apply W.
  - intros ix I. destruct (G ix I) as (w & _ & ->). eauto.
  - exists b. rewrite Eb. split; [reflexivity|]. apply nd_build_spec in Eb; [|apply W]. destruct Eb as (S & Wb & H).
    split; [exact Wb|]. split; [exact S|]. intros ix I. destruct (G ix I) as (w & Ew & T). destruct (H ix I) as (v & E1 & E2). rewrite T in E1. injection E1 as <-.
    exists w. eexists. apply nd_build_spec in Ew; [|exact P0]. destruct Ew as (Sw & Ww & Hw). split; [exact Ww|]. split; [exact Sw|]. split; [|split; [|exact E2]].
    + intros ox O. destruct (Hw ox O) as (x & X1 & X2). exists x. split; [exact X2|].
      destruct (box_read_ok md cval a (around ix sizes ox) W (inb_pos _ _ I)) as (v & Ev & C).
      { rewrite around_len; [exact L| |]. rewrite (inb_length _ _ I). symmetry; exact L. rewrite (inb_length _ _ O). reflexivity. }
      rewrite X1 in Ev. injection Ev as <-. exact C.
    + cbn [sp_reduce]. destruct Ww as [_ Ww]. rewrite Sw in Ww. rewrite <- Ww. apply ranked_sort. pose proof (size_pos _ P). dlia.
Qed.
Lemma box_nonneg sizes a b : box_medians MReflect 0 sizes a b -> (forall ix v, nd_get a ix = Some v -> (0 <= v)%Q) -> forall ix v, nd_get b ix = Some v -> (0 <= v)%Q.
Proof.
  intros (Wb & Sb & H) N ix v E. assert (I : inb (nd_shape a) ix) by (rewrite <- Sb; eapply nd_get_inb, E).
  destruct (H ix I) as (w & v' & Ww & Sw & C & R & E'). rewrite E in E'. injection E' as <-. apply ranked_in in R.
  destruct (flat_get w v Ww R) as (ox & O & G). rewrite Sw in O. destruct (C ox O) as (x & X & D). rewrite G in X. injection X as <-.
  destruct D as [(kx & _ & _ & K)|(D & _)]; [eapply N, K|discriminate].
Qed.

(** ** Arrays *)
Lemma nd_zip_ok f (a b : nd Q) : wf_nd a -> wf_nd b -> nd_shape b = nd_shape a ->
  exists c, nd_zip f a b = Some c /\ wf_nd c /\ nd_shape c = nd_shape a /\
    forall ix, inb (nd_shape a) ix -> exists x y, nd_get a ix = Some x /\ nd_get b ix = Some y /\ nd_get c ix = Some (f x y).
Proof.
  intros W W' S. unfold nd_zip. match goal with |- context [nd_build ?s ?g] => destruct (nd_build_total s g) as [c Ec] end.
  - apply W.
  - intros ix I. destruct (nd_get_total a ix W I) as [x ->]. destruct (nd_get_total b ix W') as [y ->]; [rewrite S; exact I|]. eauto.
  - exists c. split; [exact Ec|]. apply nd_build_spec in Ec; [|apply W]. destruct Ec as (Sc & Wc & H). split; [exact Wc|]. split; [exact Sc|].
    intros ix I. destruct (H ix I) as (z & Z1 & Z2). destruct (nd_get a ix) as [x|]; [|discriminate]. destruct (nd_get b ix) as [y|]; [|discriminate].
    injection Z1 as <-. eauto.
Qed.
Lemma force_ok (y : nd (option Q)) : wf_nd y -> (forall ix, inb (nd_shape y) ix -> exists v, nd_get y ix = Some (Some v)) ->
  exists b, force y = Some b /\ wf_nd b /\ nd_shape b = nd_shape y /\ forall ix v, nd_get y ix = Some (Some v) -> nd_get b ix = Some v.
Proof.
  intros W H. unfold force. destruct (traverse_total (fun x => x) (nd_flat y)) as [r T].
  - intros x I. destruct (flat_get y x W I) as (ix & B & E). destruct (H ix B) as [v V]. rewrite E in V. injection V as ->. eauto.
  - rewrite T. eexists. split; [reflexivity|]. destruct (traverse_spec _ _ _ T) as [L K]. destruct W as [P Q]. split; [split; [exact P|]; cbn [nd_flat nd_shape]; rewrite L; exact Q|].
    split; [reflexivity|]. intros ix v. unfold nd_get. cbn [nd_flat nd_shape]. destruct (ravel (nd_shape y) ix) as [k|]; [|discriminate].
    intros E. destruct (K k _ E) as (z & -> & Z). exact Z.
Qed.

(** ** The common part *)
Lemma Qabs_nonneg' x : (0 <= Qabs x)%Q. Proof. apply Qabs_nonneg. Qed.
Lemma hampel_ok t h (med : nd Q -> result (nd Q)) (R : nd Q -> nd Q -> Prop) a : wf_nd a -> (0 < h)%Q ->
  (forall x, wf_nd x -> nd_shape x = nd_shape a -> exists m, med x = Ok m /\ R x m /\ wf_nd m /\ nd_shape m = nd_shape x /\
     ((forall ix v, nd_get x ix = Some v -> (0 <= v)%Q) -> forall ix v, nd_get m ix = Some v -> (0 <= v)%Q)) ->
  exists b, hampel t h med a = Ok b /\ despiked R (eps t) h a b.
Proof.
  intros W Hh M. destruct (M a W eq_refl) as (m & Em & Rm & Wm & Sm & _). unfold hampel. rewrite Em. cbn [bind].
  destruct (nd_zip_ok (fun x y => Qabs (x - y)) a m W Wm Sm) as (dev & Ed & Wd & Sd & Hd). rewrite Ed. cbn [opt_result bind].
  destruct (M dev Wd Sd) as (s & Es & Rs & Ws & Ss & Ns). rewrite Es. cbn [bind].
  destruct (nd_zip_ok (fun x y => x / (if Qeq_bool y 0 then eps t else y))%Q dev s Wd Ws Ss) as (ratio & Er & Wr & Sr & Hr). rewrite Er. cbn [opt_result bind].
  assert (N : forall ix v, nd_get s ix = Some v -> (0 <= v)%Q).
  { apply Ns. intros ix v E. assert (I : inb (nd_shape a) ix) by (rewrite <- Sd; eapply nd_get_inb, E).
    destruct (Hd ix I) as (x & y & _ & _ & E'). rewrite E in E'. apply some_inj in E'. subst v. apply Qabs_nonneg. }
  match goal with |- context [nd_build ?s ?g] => destruct (nd_build_total s g) as [b Eb] end.
  - apply W.
  - intros ix I. destruct (Hd ix I) as (x & y & -> & -> & _). rewrite <- Sd in I. destruct (Hr ix I) as (u & v & _ & _ & ->). eauto.
  - exists b. rewrite Eb. split; [reflexivity|]. apply nd_build_spec in Eb; [|apply W]. destruct Eb as (Sb & Wb & Hb).
    exists m, dev, s. repeat (split; [assumption|]). intros ix I. destruct (Hd ix I) as (x & y & Ex & Ey & Edv).
    destruct (Hr ix ltac:(rewrite Sd; exact I)) as (u & z & Eu & Ez & Era). rewrite Edv in Eu. apply some_inj in Eu. subst u.
    exists x, y, z. repeat (split; [assumption|]). destruct (Hb ix I) as (q & Q1 & Q2). rewrite Ex, Ey, Era in Q1. rewrite Q2, <- Q1.
    assert (Z : (0 < (if Qeq_bool z 0 then eps t else z))%Q).
    { destruct (Qeq_bool z 0) eqn:C; [destruct t; reflexivity|]. apply Qeq_bool_neq in C. specialize (N ix z Ez). lra. }
    set (zz := if Qeq_bool z 0 then eps t else z) in *. clearbody zz. unfold qle. split; intros K.
    + destruct (Qle_bool (Qabs (x - y) / zz) h) eqn:C; [|reflexivity]. apply Qle_bool_iff in C. exfalso.
      assert (D : (Qabs (x - y) / zz * zz == Qabs (x - y))%Q) by (field; lra). nra.
    + destruct (Qle_bool (Qabs (x - y) / zz) h) eqn:C; [reflexivity|]. exfalso.
      assert (D : (Qabs (x - y) / zz <= h)%Q) by (apply Qle_shift_div_r; assumption). apply Qle_bool_iff in D. congruence.
Qed.
