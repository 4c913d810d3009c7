(** Lemmas about the spool tables: lookups by label, joining, loc. *)
From Verif Require Import Base BaseFacts CoordModel FrameModel ChunkModel FrameSpec CmProofs SpoolModel SpoolSpec.
From Coq Require Import Strings.String Lia Sorting.Permutation.
Local Open Scope Z_scope.
Local Open Scope list_scope.

Lemma cur_is_spec l r : cur_is l r = true <-> n_cur r = Some l.
Proof.
  unfold cur_is. destruct (n_cur r) as [c|]; [|split; discriminate].
  rewrite Z.eqb_eq. split; congruence.
Qed.
Lemma in_index_spec df r : in_index df r = true <-> exists x, In x df /\ n_cur r = Some (fst x).
Proof.
  unfold in_index. rewrite existsb_exists. split; intros (x & H & E); exists x.
  - now apply cur_is_spec in E.
  - now rewrite cur_is_spec.
Qed.

(** ** Lists *)
Lemma filter_singleton {A B} (key : A -> B) (p : A -> bool) l x :
  NoDup (map key l) -> In x l -> p x = true -> (forall y, In y l -> p y = true -> key y = key x) ->
  filter p l = [x].
Proof.
  induction l as [|y l IH]; cbn; intros N H Hp U; [easy|]. inversion N as [|? ? Hn N']; subst.
  destruct H as [->|H].
  - rewrite Hp. f_equal. destruct (filter p l) as [|z t] eqn:F; [easy|].
    exfalso. apply Hn. assert (In z (filter p l)) as Z by (rewrite F; left; auto).
    apply filter_In in Z as [Z1 Z2]. rewrite <- (U z) by auto. now apply in_map.
  - destruct (p y) eqn:Py.
    + exfalso. apply Hn. rewrite (U y) by auto. now apply in_map.
    + apply IH; auto.
Qed.

Lemma NoDup_map_filter' {A B} (f : A -> B) p l : NoDup (map f l) -> NoDup (map f (filter p l)).
Proof.
  induction l as [|x l IH]; cbn; intros N; auto. inversion N as [|? ? Hn N']; subst.
  destruct (p x); cbn; auto. constructor; auto.
  intros H. apply Hn. apply in_map_iff in H as (y & E & Hy). apply filter_In in Hy as [Hy _].
  rewrite <- E. now apply in_map.
Qed.

Lemma items_at_gather {A} (l : list A) ps out : gather l ps = Some out <-> items_at l ps out.
Proof.
  revert out. induction ps as [|p ps IH]; intros out; cbn; split; intros H.
  - injection H as <-. constructor.
  - inversion H. reflexivity.
  - destruct (znth l p) eqn:E; try discriminate. destruct (gather l ps) eqn:G; try discriminate.
    injection H as <-. constructor; auto. now apply IH.
  - inversion H as [|? x ? t E F]; subst. rewrite E. apply IH in F. now rewrite F.
Qed.

Lemma gather_Forall2 {A B} (R : A -> B -> Prop) a b ps a' :
  Forall2 R a b -> gather a ps = Some a' -> exists b', gather b ps = Some b' /\ Forall2 R a' b'.
Proof.
  intros F. revert a'. induction ps as [|p ps IH]; intros a'; cbn; intros H.
  - injection H as <-. exists []. split; auto.
  - destruct (znth a p) as [x|] eqn:E; try discriminate. destruct (gather a ps) eqn:G; try discriminate.
    injection H as <-. destruct (IH _ eq_refl) as (b' & Gb & Fb).
    assert (exists y, znth b p = Some y /\ R x y) as (y & Ey & Ry).
    { clear -F E. revert p E. induction F as [|u v a b Ruv F IHF]; intros p E.
      - now rewrite znth_nil in E.
      - revert E. rewrite !znth_cons. destruct (p =? 0); [intros [= <-]; eauto|]. eauto. }
    rewrite Ey, Gb. eauto.
Qed.

Lemma Forall2_zlen {A B} (R : A -> B -> Prop) a b : Forall2 R a b -> zlen a = zlen b.
Proof. intros F. induction F; [easy|]. rewrite !zlen_cons. lia. Qed.

Lemma Forall2_znth {A B} (R : A -> B -> Prop) a b : Forall2 R a b ->
  forall p x, znth a p = Some x -> exists y, znth b p = Some y /\ R x y.
Proof.
  intros F. induction F as [|u v a b Ruv F IHF]; intros p x E.
  - now rewrite znth_nil in E.
  - revert E. rewrite !znth_cons. destruct (p =? 0); [intros [= <-]; eauto|]. eauto.
Qed.

Lemma gather_incl {A} (l : list A) ps out x : gather l ps = Some out -> In x out -> In x l.
Proof.
  revert out. induction ps as [|p ps IH]; cbn; intros out H Hx.
  - injection H as <-. destruct Hx.
  - destruct (znth l p) eqn:E; try discriminate. destruct (gather l ps) eqn:G; try discriminate.
    injection H as <-. destruct Hx as [->|Hx]; eauto using znth_in.
Qed.

(** ** loc *)
Lemma filter_label src k f : NoDup (map fst src) -> In (k, f) src ->
  filter (fun x : Z * frow => fst x =? k) src = [(k, f)].
Proof.
  intros N H. apply filter_singleton with (key := fst); auto; cbn.
  - apply Z.eqb_refl.
  - intros y _ E. now apply Z.eqb_eq in E.
Qed.

Lemma loc_unique src : NoDup (map fst src) -> forall labels out, loc src labels = Ok out ->
  map fst out = labels /\ (forall x, In x out <-> In x src /\ In (fst x) labels).
Proof.
  intros N labels out H. unfold loc in H.
  destruct (map_result _ labels) as [ll|] eqn:E; cbn [bind] in H; [|discriminate]. injection H as <-.
  revert ll E. induction labels as [|k labels IH]; intros ll E; cbn in E.
  - injection E as <-. cbn. split; [easy|]. intros x; split; [easy|now intros []].
  - destruct (filter (fun x => fst x =? k) src) as [|y t] eqn:F; [discriminate|]. cbn in E.
    destruct (map_result _ labels) as [ll'|] eqn:E'; [|discriminate]. cbn in E. injection E as <-.
    assert (In y src /\ fst y = k) as [Hy Hk].
    { assert (In y (filter (fun x => fst x =? k) src)) as Z by (rewrite F; left; auto).
      apply filter_In in Z as [Z1 Z2]. split; auto. now apply Z.eqb_eq in Z2. }
    assert (F' : filter (fun x => fst x =? k) src = [y]).
    { destruct y as [k0 f]. cbn in Hk. subst k0. now apply filter_label. }
    rewrite F' in F. injection F as <-. destruct (IH _ eq_refl) as [I1 I2].
    cbn. split; [now rewrite Hk, I1|].
    intros x. rewrite I2. split.
    + intros [<-|[H1 H2]]; auto.
    + intros [H1 [H2|H2]]; auto. left.
      assert (In x (filter (fun z => fst z =? k) src)) as Z by (apply filter_In; split; auto; now apply Z.eqb_eq).
      rewrite F' in Z. destruct Z as [<-|[]]. reflexivity.
Qed.

Lemma loc_refuses src labels : (exists k, In k labels /\ ~ In k (map fst src)) <-> loc src labels = Err KeyError.
Proof.
  unfold loc. induction labels as [|k labels IH]; cbn.
  - split; [intros (k & [] & _)|discriminate].
  - destruct (filter (fun x => fst x =? k) src) as [|y t] eqn:F; cbn.
    + split; auto. intros _. exists k. split; auto. intros H.
      apply in_map_iff in H as (x & E & Hx).
      assert (In x (filter (fun x => fst x =? k) src)) as Z by (apply filter_In; split; auto; now apply Z.eqb_eq).
      rewrite F in Z. destruct Z.
    + assert (In k (map fst src)) as Hk.
      { assert (In y (filter (fun x => fst x =? k) src)) as Z by (rewrite F; left; auto).
        apply filter_In in Z as [Z1 Z2]. apply Z.eqb_eq in Z2. rewrite <- Z2. now apply in_map. }
      destruct (map_result _ labels) as [ll|e] eqn:E; cbn [bind] in IH |- *.
      * split; [|discriminate]. intros (j & [<-|Hj] & Hn); [easy|].
        assert (Ok (List.concat ll) = Err KeyError) as X by (apply IH; eauto). discriminate.
      * split.
        -- intros (j & [<-|Hj] & Hn); [easy|]. apply IH. eauto.
        -- intros X. apply IH in X as (j & Hj & Hn). eauto.
Qed.

(** ** One patch *)
Lemma sp_parts_one s i lb row r src :
  NoDup (map n_src (sp_ins s)) -> NoDup (map fst (sp_src s)) ->
  znth (sp_df s) (wrap_index (sp_len s) (if 0 <=? i then i else sp_len s + i)) = Some (lb, row) ->
  In r (sp_ins s) -> n_cur r = Some lb -> (forall r', In r' (sp_ins s) -> n_cur r' = Some lb -> r' = r) ->
  In (n_src r, src) (sp_src s) ->
  sp_parts s i = Ok [(r, src)].
Proof.
  intros N1 N2 E Hr Hc U Hs. unfold sp_parts. rewrite E. cbn [fst].
  rewrite (filter_singleton n_src (cur_is lb) _ r N1 Hr);
    [|now apply cur_is_spec|intros y Hy Py; apply cur_is_spec in Py; now rewrite (U y)].
  cbn [map_result]. unfold join_one. rewrite (filter_label _ _ src N2 Hs). reflexivity.
Qed.

Lemma wrap_twice n i : - n <= i < n -> wrap_index n (if 0 <=? i then i else n + i) = if 0 <=? i then i else n + i.
Proof. intros H. unfold wrap_index. destruct (0 <=? i) eqn:E; [apply Z.leb_le in E|apply Z.leb_gt in E]; destruct (_ <? 0) eqn:F; try apply Z.ltb_lt in F; lia. Qed.

Lemma sp_parts_IndexError s i : sp_parts s i = Err IndexError <->
  (sp_len s <= i \/ i < - 2 * sp_len s).
Proof.
  unfold sp_parts. pose proof (zlen_nonneg (sp_df s)) as Hn. fold (sp_len s) in Hn.
  set (j := wrap_index _ _).
  assert (Hj : 0 <= j < sp_len s <-> - 2 * sp_len s <= i < sp_len s).
  { unfold j, wrap_index. destruct (0 <=? i) eqn:E; [apply Z.leb_le in E|apply Z.leb_gt in E];
      destruct (_ <? 0) eqn:F; [apply Z.ltb_lt in F|apply Z.ltb_ge in F|apply Z.ltb_lt in F|apply Z.ltb_ge in F]; lia. }
  destruct (znth (sp_df s) j) as [row|] eqn:Z.
  - apply znth_some in Z. fold (sp_len s) in Z.
    split; [|lia].
    destruct (filter _ _) as [|a t] eqn:F; [discriminate|].
    assert (G : forall l e, map_result (join_one (sp_src s)) l = Err e -> e = Unmodelled).
    { induction l as [|x l IH]; cbn; [discriminate|]. intros e. unfold join_one at 1.
      destruct (filter _ (sp_src s)); cbn; [congruence|].
      destruct (map_result (join_one (sp_src s)) l); cbn; [discriminate|]. intros [= <-]. now apply IH. }
    destruct (map_result _ (a :: t)) eqn:M; cbn [bind]; [discriminate|]. apply G in M. subst. discriminate.
  - apply znth_none in Z. fold (sp_len s) in Z. split; auto. intros _. lia.
Qed.
