(** Proofs for reading attributes by name (C103). *)
From Verif Require Import Base BaseFacts FrameModel CmModel CmProofs AttrsModel AttrsProofs PickModel PickSpec.
From Coq Require Import Strings.String Strings.Ascii Lia.
Local Open Scope list_scope.

Lemma split_join2 base attr : dotless base -> str_split "."%char (base ++ String "."%char attr) = base :: str_split "."%char attr.
Proof.
  induction base as [|c s IH]; intros D; [reflexivity|]. cbn. destruct (Ascii.eqb_spec c ".") as [->|N]; [elim (D EmptyString s); reflexivity|].
  rewrite IH; [reflexivity|]. intros a b E. apply (D (String c a) b). cbn. rewrite E. reflexivity.
Qed.
Lemma split_inv a h t : str_split "."%char a = h :: t -> dotless h /\ match t with [] => a = h | _ => exists r, a = (h ++ String "."%char r)%string /\ str_split "."%char r = t end.
Proof.
  revert h t. induction a as [|c s IH]; cbn; intros h t E.
  - injection E as <- <-. split; [|reflexivity]. intros [|x a] b X; discriminate.
  - destruct (Ascii.eqb_spec c ".") as [->|N].
    + injection E as <- <-. split; [intros [|x a] b X; discriminate|]. destruct (str_split_cons "."%char s) as (h & t & S). rewrite S. exists s. split; [reflexivity|exact S].
    + destruct (str_split_cons "."%char s) as (h' & t' & S). rewrite S in E. injection E as <- <-. destruct (IH h' t' S) as [D M]. split.
      * intros [|x a] b X; [injection X as -> _; contradiction|]. injection X as _ X. exact (D a b X).
      * destruct t'; [subst; reflexivity|]. destruct M as (r & -> & M). exists r. split; [reflexivity|exact M].
Qed.
Lemma split_one a : (exists b, str_split "."%char a = [b]) <-> dotless a.
Proof. split; [intros [b E]; apply split_inv in E as [D ->]; exact D|intros D; exists a; apply str_split_single, D]. Qed.
Lemma split_two a b c : str_split "."%char a = [b; c] <-> attr_address a b c.
Proof.
  split.
  - intros E. apply split_inv in E as (D & r & -> & E). apply split_inv in E as [D' ->]. split; [reflexivity|]. split; assumption.
  - intros (-> & D & D'). rewrite split_join2 by exact D. rewrite str_split_single by exact D'. reflexivity.
Qed.
Lemma attr_not_dotless a b c : attr_address a b c -> ~ dotless a.
Proof. intros (-> & _) D. exact (D b c eq_refl). Qed.
Lemma attr_unique a b c b' c' : attr_address a b c -> attr_address a b' c' -> b = b' /\ c = c'.
Proof. intros A B. apply split_two in A. apply split_two in B. rewrite A in B. injection B as -> ->. split; reflexivity. Qed.
Lemma at_unique f a v w : at_address f a v -> at_address f a w -> v = w.
Proof. intros (b & c & t & A & B & C) (b' & c' & t' & A' & B' & C'). destruct (attr_unique _ _ _ _ _ A A') as [<- <-]. congruence. Qed.

Theorem matches_ok f st : (forall a, In a st -> proper a) -> exists r, matches f st = Ok r /\ (r = true <-> forall a, In a st -> present f a).
Proof.
  induction st as [|a st IH]; intros P; [exists true; split; [reflexivity|]; split; [intros _ a []|reflexivity]|].
  destruct IH as (r & R & RR); [intros x X; apply P; right; exact X|]. cbn [matches].
  assert (No : ~ present f a -> exists r, Ok false = Ok r /\ (r = true <-> forall x, In x (a :: st) -> present f x)).
  { intros N. exists false. split; [reflexivity|]. split; [discriminate|]. intros H. exfalso. apply N, H. left. reflexivity. }
  assert (Yes : present f a -> exists r, matches f st = Ok r /\ (r = true <-> forall x, In x (a :: st) -> present f x)).
  { intros Y. exists r. split; [exact R|]. rewrite RR. split; [intros H x [<-|X]; auto|intros H x X; apply H; right; exact X]. }
  destruct (P a (or_introl eq_refl)) as [D|(b & c & A)].
  - rewrite str_split_single by exact D. destruct (assoc a f) as [t|] eqn:E.
    + apply Yes. left. split; [exact D|]. eauto.
    + apply No. intros [[_ [t T]]|(v & b & c & t & A & _)]; [congruence|]. exact (attr_not_dotless _ _ _ A D).
  - rewrite (proj2 (split_two a b c) A). destruct (assoc b f) as [t|] eqn:E; [destruct (assoc c t) as [v|] eqn:E2|].
    + apply Yes. right. exists v, b, c, t. auto.
    + apply No. intros [[D _]|(v & b' & c' & t' & A' & T & V)]; [exact (attr_not_dotless _ _ _ A D)|]. destruct (attr_unique _ _ _ _ _ A A') as [<- <-]. congruence.
    + apply No. intros [[D _]|(v & b' & c' & t' & A' & T & V)]; [exact (attr_not_dotless _ _ _ A D)|]. destruct (attr_unique _ _ _ _ _ A A') as [<- <-]. congruence.
Qed.
Lemma improper a : ~ proper a <-> exists b c d t, str_split "."%char a = b :: c :: d :: t.
Proof.
  split.
  - intros N. destruct (str_split_cons "."%char a) as (b & t & E). destruct t as [|c [|d t]].
    + exfalso. apply N. left. apply split_one. eauto.
    + exfalso. apply N. right. exists b, c. apply split_two, E.
    + eauto.
  - intros (b & c & d & t & E) [D|(x & y & A)]; [rewrite str_split_single in E by exact D; discriminate|]. apply split_two in A. congruence.
Qed.
Theorem matches_error f st e : matches f st = Err e -> e = AssertionError /\ exists l a r, st = l ++ a :: r /\ ~ proper a /\ forall x, In x l -> present f x.
Proof.
  induction st as [|a st IH]; cbn [matches]; [discriminate|].
  assert (Go : present f a -> matches f st = Err e -> e = AssertionError /\ exists l x r, a :: st = l ++ x :: r /\ ~ proper x /\ forall y, In y l -> present f y).
  { intros Y H. destruct (IH H) as (-> & l & x & r & -> & N & L). split; [reflexivity|]. exists (a :: l), x, r. split; [reflexivity|]. split; [exact N|]. intros y [<-|I]; auto. }
  destruct (str_split "."%char a) as [|b [|c [|d t]]] eqn:S.
  - destruct (str_split_cons "."%char a) as (h & t & E). congruence.
  - assert (D : dotless a) by (apply split_one; eauto). assert (b = a) by (rewrite str_split_single in S by exact D; congruence). subst b. destruct (assoc a f) as [t|] eqn:E; [|discriminate]. apply Go. left. split; [exact D|]. eauto.
  - apply split_two in S. destruct (assoc b f) as [t|] eqn:E; [|discriminate]. destruct (assoc c t) as [v|] eqn:E2; [|discriminate]. apply Go. right. exists v, b, c, t. auto.
  - intros [= <-]. split; [reflexivity|]. exists [], a, st. split; [reflexivity|]. split; [apply improper; eauto 6|intros x []].
Qed.

Lemma reads_spec v x : reads v x <-> unpack (unbyte v) = x.
Proof.
  split; [intros [| | | | |l L]; try reflexivity; destruct l as [|? [|? ?]]; cbn in *; try reflexivity; lia|]. intros <-. destruct v as [|s|s|z|[|x [|y l]]]; cbn; constructor; cbn; lia.
Qed.
Lemma pick_ok f a x : pick f a = Ok x <-> exists v, at_address f a v /\ reads v x.
Proof.
  unfold pick. split.
  - destruct (str_split "."%char a) as [|b [|c [|d t]]] eqn:S; try discriminate. apply split_two in S. destruct (assoc b f) as [t|] eqn:E; [|discriminate]. destruct (assoc c t) as [v|] eqn:E2; [|discriminate].
    intros [= <-]. exists v. split; [exists b, c, t; auto|apply reads_spec; reflexivity].
  - intros (v & (b & c & t & A & B & C) & R). rewrite (proj2 (split_two a b c) A), B, C. apply reads_spec in R. rewrite R. reflexivity.
Qed.
Lemma pick_err f a e : pick f a = Err e -> (e = KeyError /\ (exists b c, attr_address a b c) /\ ~ present f a) \/ (e = AssertionError /\ forall b c, ~ attr_address a b c).
Proof.
  unfold pick. destruct (str_split "."%char a) as [|b [|c [|d t]]] eqn:S; try (intros [= <-]; right; split; [reflexivity|intros x y A; apply split_two in A; congruence]).
  apply split_two in S. intros H. left. assert (N : forall v, ~ at_address f a v).
  { intros v (b' & c' & t' & A' & T & V). destruct (attr_unique _ _ _ _ _ S A') as [<- <-]. rewrite T, V in H. discriminate. }
  assert (K : e = KeyError) by (destruct (assoc b f) as [t|]; [destruct (assoc c t)|]; congruence). split; [exact K|]. split; [eauto|]. intros [[D _]|[v V]]; [exact (attr_not_dotless _ _ _ S D)|exact (N v V)].
Qed.
Lemma hval_eqb_spec a b : scalar b -> hval_eqb a b = true <-> a = b.
Proof.
  intros SC. destruct a, b; cbn; split; intros H; try discriminate; try reflexivity; try (apply String.eqb_eq in H; congruence); try (apply Z.eqb_eq in H; congruence); try (injection H as ->; try apply String.eqb_refl; try apply Z.eqb_refl); exfalso; eapply SC; reflexivity.
Qed.
Lemma fill_ok fill x y : NoDup (map fst fill) -> fill_in fill x = Ok y <-> filled fill x y.
Proof.
  intros ND. unfold filled. assert (G : scalar x -> (match find (fun p => hval_eqb (fst p) x) fill with Some p => Ok (snd p) | None => Ok x end) = Ok y <-> In (x, y) fill \/ ~ In x (map fst fill) /\ y = x).
  { intros SC. destruct (find _ fill) as [[k w]|] eqn:F.
    - apply find_some in F as [I E]. cbn [fst] in E. apply (hval_eqb_spec k x SC) in E. subst k. cbn [snd]. split; [intros [= ->]; left; exact I|]. intros [J|[J _]].
      + f_equal. clear -ND I J. induction fill as [|[k u] t IH]; [contradiction|]. cbn in ND. inversion ND as [|? ? N1 N2]; subst. destruct I as [I|I], J as [J|J]; try congruence; [| |auto]; exfalso; apply N1; [injection I as -> ->; apply in_map_iff; exists (x, y)|injection J as -> ->; apply in_map_iff; exists (x, w)]; auto.
      + exfalso. apply J. apply in_map_iff. exists (x, w). auto.
    - assert (N : ~ In x (map fst fill)). { intros I. apply in_map_iff in I as ([k w] & E & I). cbn in E. subst k. pose proof (find_none _ _ F _ I) as Z0. cbn in Z0. rewrite (proj2 (hval_eqb_spec x x SC) eq_refl) in Z0. discriminate. }
      split; [intros [= <-]; right; auto|]. intros [I|[_ ->]]; [|reflexivity]. exfalso. apply N. apply in_map_iff. exists (x, y). auto. }
  unfold fill_in. destruct x; try (rewrite G by (intros l; discriminate); split; [intros H; split; [intros l; discriminate|exact H]|intros [_ H]; exact H]). split; [discriminate|]. intros [SC _]. exfalso. eapply SC. reflexivity.
Qed.
Lemma fill_err fill x e : fill_in fill x = Err e -> e = TypeError /\ exists l, x = HArr l.
Proof. unfold fill_in. destruct x; try (destruct (find _ _); discriminate). intros [= <-]. split; [reflexivity|eauto]. Qed.

Lemma keys_set {A} k (v : A) l n : In n (map fst (assoc_set k v l)) <-> n = k \/ In n (map fst l).
Proof. rewrite <- !assoc_In, assoc_assoc_set. destruct (String.eqb_spec n k) as [->|N]; split; intros H; auto; [exists v; reflexivity|destruct H as [H|H]; [contradiction|exact H]]. Qed.
Lemma extract_gen f fill nm : forall o out, extract f fill nm o = Ok out ->
  (forall n, In n (map fst out) <-> In n (map snd nm) \/ In n (map fst o)) /\ (forall n, ~ In n (map snd nm) -> assoc n out = assoc n o) /\
  (forall l a n r, nm = l ++ (a, n) :: r -> ~ In n (map snd r) -> exists x y, pick f a = Ok x /\ fill_in fill x = Ok y /\ assoc n out = Some y).
Proof.
  induction nm as [|[a0 n0] nm IH]; intros o out E; cbn [extract] in E.
  - injection E as <-. split; [intros n; cbn; tauto|]. split; [reflexivity|]. intros [|? ?] a n r X; discriminate.
  - destruct (pick f a0) as [x|] eqn:P; [|discriminate]. cbn [bind] in E. destruct (fill_in fill x) as [y|] eqn:Fy; [|discriminate]. cbn [bind] in E. destruct (IH _ _ E) as (K & O & V). split; [|split].
    + intros n. rewrite K, keys_set. cbn. intuition congruence.
    + intros n N. cbn in N. rewrite O by tauto. rewrite assoc_assoc_set. destruct (String.eqb_spec n n0) as [->|]; [exfalso; apply N; auto|reflexivity].
    + intros [|e l] a n r X N; cbn in X; injection X; intros; subst.
      * exists x, y. split; [exact P|]. split; [exact Fy|]. rewrite O by exact N. rewrite assoc_assoc_set, String.eqb_refl. reflexivity.
      * eapply V; [reflexivity|exact N].
Qed.
Theorem extract_result f fill nm out : NoDup (map fst fill) -> extract f fill nm [] = Ok out -> (forall n, In n (map fst out) <-> In n (map snd nm)) /\
  forall l a n r, nm = l ++ (a, n) :: r -> ~ In n (map snd r) -> exists v x y, at_address f a v /\ reads v x /\ filled fill x y /\ assoc n out = Some y.
Proof.
  intros ND E. destruct (extract_gen _ _ _ _ _ E) as (K & _ & V). split; [intros n; rewrite K; cbn; tauto|]. intros l a n r X N. destruct (V l a n r X N) as (x & y & P & Fy & A). apply pick_ok in P as (v & P & R). apply fill_ok in Fy; [|exact ND]. exists v, x, y. auto.
Qed.
Theorem extract_ok f fill nm o : (forall a n, In (a, n) nm -> exists v x, at_address f a v /\ reads v x /\ scalar x) -> exists out, extract f fill nm o = Ok out.
Proof.
  revert o. induction nm as [|[a n] nm IH]; intros o H; [exists o; reflexivity|]. cbn [extract]. destruct (H a n (or_introl eq_refl)) as (v & x & A & R & SC). rewrite (proj2 (pick_ok f a x)) by eauto. cbn [bind].
  destruct (fill_in fill x) as [y|e] eqn:Fy; [|apply fill_err in Fy as (_ & l & ->); exfalso; eapply SC; reflexivity]. cbn [bind]. apply IH. intros a' n' I. apply (H a' n'). right. exact I.
Qed.
Theorem extract_err f fill nm o e : extract f fill nm o = Err e -> exists a, In a (map fst nm) /\
  ((e = KeyError /\ (exists b c, attr_address a b c) /\ ~ present f a) \/ (e = AssertionError /\ forall b c, ~ attr_address a b c) \/ (e = TypeError /\ exists v l, at_address f a v /\ reads v (HArr l))).
Proof.
  revert o. induction nm as [|[a n] nm IH]; intros o E; cbn [extract] in E; [discriminate|]. destruct (pick f a) as [x|e0] eqn:P; cbn [bind] in E.
  - destruct (fill_in fill x) as [y|e0] eqn:Fy; cbn [bind] in E.
    + destruct (IH _ E) as (b & I & H). exists b. split; [right; exact I|exact H].
    + injection E as <-. exists a. split; [left; reflexivity|]. apply fill_err in Fy as (-> & l & ->). apply pick_ok in P as (v & A & R). right. right. split; [reflexivity|]. eauto.
  - injection E as <-. exists a. split; [left; reflexivity|]. apply pick_err in P as [P|P]; auto.
Qed.
Theorem checked f fill nm : matches f (map fst nm) = Ok true -> (forall a, In a (map fst nm) -> exists b c, attr_address a b c) ->
  (forall a v l, In a (map fst nm) -> at_address f a v -> ~ reads v (HArr l)) -> exists out, extract f fill nm [] = Ok out.
Proof.
  intros M A SC. destruct (matches_ok f (map fst nm)) as (r & R & RR). { intros a I. right. apply A, I. } rewrite M in R. injection R as <-. apply extract_ok. intros a n I. assert (J : In a (map fst nm)) by (apply in_map_iff; exists (a, n); auto).
  destruct (proj1 RR eq_refl a J) as [[D _]|[v V]]; [destruct (A a J) as (b & c & X); exfalso; exact (attr_not_dotless _ _ _ X D)|]. exists v, (unpack (unbyte v)). split; [exact V|]. split; [apply reads_spec; reflexivity|]. intros l E. apply (SC a v l J V). apply reads_spec, E.
Qed.

Definition given (obj : list (string * hval)) (old : string) : Prop := exists v, assoc old obj = Some v /\ v <> HNone.
Lemma items_gen obj un nm : forall o,
  (forall n, In n (map fst (get_items obj un nm o)) <-> (exists old, In (old, n) nm /\ given obj old) \/ In n (map fst o)) /\
  (forall n, (forall old, In (old, n) nm -> ~ given obj old) -> assoc n (get_items obj un nm o) = assoc n o) /\
  (forall l old n r v, nm = l ++ (old, n) :: r -> (forall x, In (x, n) r -> ~ given obj x) -> assoc old obj = Some v -> v <> HNone ->
     assoc n (get_items obj un nm o) = Some (if mem old un then unpack (unbyte v) else unbyte v)).
Proof.
  induction nm as [|[a0 n0] nm IH]; intros o; cbn [get_items].
  - split; [intros n; split; [auto|intros [(x & [] & _)|H]; exact H]|]. split; [reflexivity|]. intros [|? ?] a n r v X; discriminate.
  - assert (Skip : ~ given obj a0 -> (match assoc a0 obj with None | Some HNone => get_items obj un nm o | Some v => get_items obj un nm (assoc_set n0 (if mem a0 un then unpack (unbyte v) else unbyte v) o) end) = get_items obj un nm o).
    { intros N. destruct (assoc a0 obj) as [v|] eqn:E; [|reflexivity]. destruct v; try reflexivity; exfalso; apply N; eexists; (split; [exact E|discriminate]). }
    assert (Take : forall v, assoc a0 obj = Some v -> v <> HNone -> (match assoc a0 obj with None | Some HNone => get_items obj un nm o | Some v => get_items obj un nm (assoc_set n0 (if mem a0 un then unpack (unbyte v) else unbyte v) o) end) = get_items obj un nm (assoc_set n0 (if mem a0 un then unpack (unbyte v) else unbyte v) o)).
    { intros v -> N. destruct v; try reflexivity; contradiction. }
    assert (Dec : given obj a0 \/ ~ given obj a0). { unfold given. destruct (assoc a0 obj) as [v|]; [destruct v; try (left; eexists; split; [reflexivity|discriminate]); right; intros (w & [= <-] & N); contradiction|right; intros (w & W & _); discriminate]. }
    destruct Dec as [Gv|N].
    + destruct Gv as (v & E & Nn). rewrite (Take v E Nn). destruct (IH (assoc_set n0 (if mem a0 un then unpack (unbyte v) else unbyte v) o)) as (K & O & V). split; [|split].
      * intros n. rewrite K, keys_set. split.
        -- intros [(x & I & Gx)|[->|I]]; [left; exists x; split; [right; exact I|exact Gx]|left; exists a0; split; [left; reflexivity|exists v; auto]|right; exact I].
        -- intros [(x & [I|I] & Gx)|I]; [injection I as -> ->; auto|left; eauto|auto].
      * intros n H. rewrite O by (intros x I; apply H; right; exact I). rewrite assoc_assoc_set. destruct (String.eqb_spec n n0) as [->|]; [exfalso; apply (H a0 (or_introl eq_refl)); exists v; auto|reflexivity].
      * intros [|e l] old n r w X Nr W Wn; cbn in X; injection X; intros; subst.
        -- rewrite O by exact Nr. rewrite assoc_assoc_set, String.eqb_refl. rewrite E in W. injection W as ->. reflexivity.
        -- eapply V; [reflexivity|exact Nr|exact W|exact Wn].
    + rewrite (Skip N). destruct (IH o) as (K & O & V). split; [|split].
      * intros n. rewrite K. split; [intros [(x & I & Gx)|I]; [left; exists x; split; [right; exact I|exact Gx]|auto]|]. intros [(x & [I|I] & Gx)|I]; [injection I as -> ->; contradiction|left; eauto|auto].
      * intros n H. apply O. intros x I. apply H. right. exact I.
      * intros [|e l] old n r w X Nr W Wn; cbn in X; injection X; intros; subst; [exfalso; apply N; exists w; auto|]. eapply V; [reflexivity|exact Nr|exact W|exact Wn].
Qed.
Theorem items_result obj un nm : (forall n, In n (map fst (get_items obj un nm [])) <-> exists old v, In (old, n) nm /\ assoc old obj = Some v /\ v <> HNone) /\
  forall l old n r v, nm = l ++ (old, n) :: r -> (forall x w, In (x, n) r -> assoc x obj = Some w -> w = HNone) -> assoc old obj = Some v -> v <> HNone ->
    exists x, assoc n (get_items obj un nm []) = Some x /\ item_value (mem old un) v x.
Proof.
  destruct (items_gen obj un nm []) as (K & _ & V). split.
  - intros n. rewrite K. split; [intros [(x & I & w & W)|[]]; eauto|]. intros (x & w & I & W). left. exists x. split; [exact I|]. exists w. exact W.
  - intros l old n r v X Nr W Wn. eexists. split; [eapply V; [exact X| |exact W|exact Wn]; intros x I (w & Wx & Wxn); apply Wxn, (Nr x w I Wx)|]. unfold item_value. destruct (mem old un); [apply reads_spec; reflexivity|]. destruct v; reflexivity.
Qed.
Fixpoint dotlessb (s : string) : bool := match s with EmptyString => true | String c r => negb (Ascii.eqb c "."%char) && dotlessb r end.
Lemma dotlessb_ok s : dotlessb s = true -> dotless s.
Proof.
  induction s as [|c r IH]; cbn; intros H [|x a] b E; try discriminate.
  - injection E as -> _. rewrite Ascii.eqb_refl in H. discriminate.
  - injection E as _ E. apply andb_prop in H as [_ H]. exact (IH H a b E).
Qed.
