(** Scanning: nothing is offered twice. *)
From Verif Require Import Base BaseFacts IoModel IoSpec IoProofs2 IoProofs3.
From Coq Require Import Strings.String Strings.Ascii Lia ZArith.
Local Open Scope Z_scope.
Local Open Scope list_scope.

Lemma NoDup_two {A} (a b : list A) : NoDup a -> NoDup b -> (forall x, In x a -> ~ In x b) -> NoDup (a ++ b).
Proof.
  induction a as [|x a IH]; intros Na Nb D; auto. cbn [app]. inversion Na; subst. constructor.
  - intros I. apply in_app_or in I. destruct I as [I|I]; [contradiction|]. apply (D x); [now left|exact I].
  - apply IH; auto. intros y Y. apply D. now right.
Qed.

Definition below (p q : string) : Prop := q = p \/ exists r, q = (p ++ "/" ++ r)%string.
Lemma below_trans p s q : below (join p s) q -> exists r, q = (p ++ "/" ++ r)%string.
Proof.
  unfold join. intros [->|[r ->]]; [eauto|]. exists (s ++ "/" ++ r)%string. now rewrite !append_assoc.
Qed.
Lemma no_slash_eq a : forall b x y, no_slash a -> no_slash b ->
  (x = EmptyString \/ exists r, x = ("/" ++ r)%string) -> (y = EmptyString \/ exists r, y = ("/" ++ r)%string) ->
  (a ++ x = b ++ y)%string -> a = b.
Proof.
  induction a as [|c a IH]; intros [|d b] x y Na Nb X Y E; auto; cbn [String.append] in E; cbn [no_slash] in *.
  - destruct X as [->|[r ->]]; [discriminate|]. injection E as E _. destruct Nb as [Nb _]. exfalso. apply Nb. rewrite <- E. reflexivity.
  - destruct Y as [->|[r ->]]; [discriminate|]. injection E as E _. destruct Na as [Na _]. exfalso. apply Na. rewrite E. reflexivity.
  - injection E as -> E. f_equal. eapply IH; [| | | |exact E]; tauto.
Qed.
Lemma below_disjoint p a b q : no_slash a -> no_slash b -> below (join p a) q -> below (join p b) q -> a = b.
Proof.
  assert (W : forall a, below (join p a) q -> exists x, (x = EmptyString \/ exists r, x = ("/" ++ r)%string) /\ q = (p ++ "/" ++ a ++ x)%string).
  { unfold join. intros c [->|[r ->]]; [exists EmptyString|exists ("/" ++ r)%string]; split; eauto.
    - now rewrite append_nil.
    - now rewrite !append_assoc. }
  intros Na Nb A B. destruct (W a A) as (x & X & ->). destruct (W b B) as (y & Y & E).
  apply append_inv in E. apply (append_inv "/") in E. exact (no_slash_eq a b x y Na Nb X Y E).
Qed.
Lemma below_self p r : (p ++ "/" ++ r)%string <> p.
Proof. intros E. apply (f_equal String.length) in E. rewrite !append_length in E. cbn in E. lia. Qed.

Section Once.
Context {R : Type} (ext : option string) (timestamp : option Z) (claimedb : string -> Z -> bool).
Notation items := (@items_fs R ext timestamp claimedb).
Notation items_of := (@items_dir R ext timestamp claimedb).
Definition at_path (i : item R) (q : string) : Prop := i = IFile q \/ exists m, i = IDir q m.
Lemma at_path_eq i q q' : at_path i q -> at_path i q' -> q = q'.
Proof. intros [->|[m ->]] [E|[m' E]]; congruence. Qed.

Lemma dir_below p es : (forall e, In e es -> forall p i, In i (items p e) -> exists q, at_path i q /\ below p q) ->
  forall i, In i (items_of p es) -> exists e q, In e es /\ at_path i q /\ below (join p (node_name e)) q.
Proof.
  induction es as [|e es IHe]; intros IH i I; cbn [items_dir] in I; [destruct I|].
  assert (W : In i (items_of p es) -> exists e' q, In e' (e :: es) /\ at_path i q /\ below (join p (node_name e')) q).
  { intros J. destruct (IHe (fun e' I => IH e' (or_intror I)) i J) as (e' & q & A & B). exists e', q. split; [now right|exact B]. }
  destruct e as [s m|s m es'].
  - destruct (file_ok ext timestamp s m); auto. destruct I as [<-|I]; auto.
    exists (NFile s m), (join p s). split; [now left|]. split; [now left|now left].
  - destruct (hidden s); auto. apply in_app_or in I. destruct I as [I|I]; auto.
    destruct (IH _ (or_introl eq_refl) _ _ I) as (q & A & B). exists (NDir s m es'), q. split; [now left|auto].
Qed.
Lemma items_below n : forall p i, In i (items p n) -> exists q, at_path i q /\ below p q.
Proof.
  induction n as [s m|s m es IH] using node_ind'; intros p i I.
  - destruct I as [<-|[]]. exists p. split; now left.
  - rewrite items_fs_dir in I.
    assert (C : In i (items_of p es) -> exists q, at_path i q /\ below p q).
    { intros J. destruct (dir_below p es IH i J) as (e & q & _ & A & B). exists q. split; auto. right. eapply below_trans; eauto. }
    destruct (hidden p); auto. destruct I as [<-|I]; [exists p; split; [right; eauto|now left]|].
    destruct (claimedb p m); [destruct I|auto].
Qed.
Theorem items_once n : forall p, well_named n -> NoDup (items p n).
Proof.
  induction n as [s m|s m es IH] using node_ind'; intros p W.
  - cbn. constructor; [intros []|constructor].
  - inversion W as [|? ? ? ND All]; subst. rewrite items_fs_dir.
    assert (C : NoDup (items_of p es)).
    { clear W. induction es as [|e es IHe]; cbn [items_dir]; [constructor|].
      cbn [map] in ND. inversion ND as [|? ? NI ND']; subst.
      specialize (IHe (fun e' I => IH e' (or_intror I)) ND' (fun e' I => All e' (or_intror I))).
      destruct (All e (or_introl eq_refl)) as [Se We].
      assert (D : forall i q, at_path i q -> below (join p (node_name e)) q -> ~ In i (items_of p es)).
      { intros i q A B J. destruct (dir_below p es (fun e' _ => items_below e') i J) as (e' & q' & I' & A' & B').
        rewrite <- (at_path_eq _ _ _ A A') in B'.
        assert (E : node_name e = node_name e') by (eapply below_disjoint; eauto; apply All; now right).
        apply NI. rewrite E. apply in_map, I'. }
      destruct e as [s' m'|s' m' es'].
      - destruct (file_ok ext timestamp s' m'); auto. constructor; auto. eapply D; [now left|now left].
      - destruct (hidden s'); auto. apply NoDup_two; auto.
        + apply IH; [now left|exact We].
        + intros i I. destruct (items_below _ _ _ I) as (q & A & B). eapply D; eauto. }
    destruct (hidden p); auto. destruct (claimedb p m); constructor; auto; try (intros []); try constructor.
    intros I. destruct (dir_below p es (fun e' _ => items_below e') _ I) as (e & q & _ & A & B).
    destruct A as [A|[m' A]]; [discriminate|]. injection A as <- _. apply below_trans in B. destruct B as [r B].
    symmetry in B. now apply below_self in B.
Qed.
End Once.

Lemma found_hidden {R} ext timestamp claimed p n (i : item R) :
  Found ext timestamp claimed p n i -> is_hidden p -> forall q m, i <> IDir q m.
Proof.
  induction 1; intros Hp q0 m0; try discriminate.
  - contradiction.
  - apply IHFound. destruct Hp as [r ->]. exists (r ++ "/" ++ name')%string. now rewrite !append_assoc.
Qed.

Section Listings.
Context {R : Type} (reads_dirs : Z -> bool) (reader : item R -> outcome Z) (ext : option string) (timestamp : option Z).
Notation claimed := (claims reads_dirs reader).
Notation iff_ := (claimsb_iff reads_dirs reader).
Theorem listing_once p n (l : list (item R)) : well_named n -> listing ext timestamp claimed p n l -> NoDup l.
Proof. intros W L. apply (listing_iff ext timestamp _ _ iff_) in L. subst l. now apply items_once. Qed.
Theorem listing_found p n (l : list (item R)) i : listing ext timestamp claimed p n l -> (In i l <-> Found ext timestamp claimed p n i).
Proof. intros L. apply (listing_iff ext timestamp _ _ iff_) in L. subst l. symmetry. apply found_iff, iff_. Qed.
Theorem listing_unique ss : exists l : list (item R), forall l', listing_in ext timestamp claimed ss l' <-> l' = l.
Proof. eexists. intros l'. apply (listing_in_iff ext timestamp _ _ iff_). Qed.
Theorem listing_hidden p n (l : list (item R)) q m : is_hidden p -> listing ext timestamp claimed p n l -> ~ In (IDir q m) l.
Proof. intros H L I. apply (listing_found p n l _ L) in I. eapply found_hidden; eauto. Qed.
End Listings.

(** ** Hints *)
Lemma last_such_none P : last_such P [] None.
Proof. intros x []. Qed.
Lemma last_such_yes (P : Z -> Prop) l x : P x -> last_such P (l ++ [x]) (Some x).
Proof. intros H. split; [exact H|]. exists l, []. split; [reflexivity|intros y []]. Qed.
Lemma last_such_no (P : Z -> Prop) l x o : ~ P x -> last_such P l o -> last_such P (l ++ [x]) o.
Proof.
  intros N. destruct o as [z|]; cbn.
  - intros (Hz & pre & post & -> & Q). split; [exact Hz|]. exists pre, (post ++ [x]). split; [rewrite <- app_assoc; reflexivity|]. intros y I. apply in_app_or in I. destruct I as [I|[<-|[]]]; auto.
  - intros Q y I. apply in_app_or in I. destruct I as [I|[<-|[]]]; auto.
Qed.
Lemma last_such_unique P l o o' : last_such P l o -> last_such P l o' -> o = o'.
Proof.
  destruct o as [x|], o' as [y|]; cbn; [|intros (Hx & pre & post & -> & _) N; exfalso; apply (N x); [apply in_or_app; right; left; reflexivity|exact Hx]|
    intros N (Hx & pre & post & -> & _); exfalso; apply (N y); [apply in_or_app; right; left; reflexivity|exact Hx]|reflexivity].
  intros (Hx & a & b & -> & B) (Hy & a' & b' & E & B'). f_equal. revert a' E. induction a as [|c a IH]; intros a' E.
  - destruct a' as [|c' a']; cbn in E; [congruence|]. injection E as -> E. exfalso. apply (B y); [rewrite E; apply in_or_app; right; left; reflexivity|exact Hy].
  - destruct a' as [|c' a']; cbn in E.
    + injection E as E1 E2. exfalso. apply (B' x); [rewrite <- E2; apply in_or_app; right; left; reflexivity|exact Hx].
    + injection E as _ E. exact (IH a' E).
Qed.
Lemma hints_loop {R} rd detect (scans : Z -> item R -> @answer R) ext done ss rowss : recognised rd detect scans done ss rowss -> forall h out,
  last_such (fun r => rd r = true) done (fst h) -> last_such (fun r => rd r = false) done (snd h) ->
  scan_loop rd detect scans None (iter_inputs ext None true ss) h [] out = Fine (out ++ List.concat rowss, []).
Proof.
  induction 1 as [done|done a ss rowss _ IH|done s i dir hd hf io rows ss rowss P Hd Hf D K S _ IH]; intros h out L1 L2.
  - cbn. rewrite app_nil_r. reflexivity.
  - cbn. rewrite IH by assumption. rewrite <- app_assoc. reflexivity.
  - assert (E : h = (hd, hf)) by (destruct h as [x y]; cbn in L1, L2; f_equal; eapply last_such_unique; eauto). subst h.
    assert (N : last_such (fun r => rd r = true) (done ++ [io]) (fst (hinted rd (hd, hf) io)) /\ last_such (fun r => rd r = false) (done ++ [io]) (snd (hinted rd (hd, hf) io))).
    { unfold hinted. destruct (rd io) eqn:Q; cbn [fst snd]; split.
      - apply last_such_yes. exact Q.
      - apply last_such_no; [congruence|assumption].
      - apply last_such_no; [congruence|assumption].
      - apply last_such_yes. exact Q. }
    destruct N as [N1 N2]. cbn [List.concat]. rewrite app_assoc.
    revert K. inversion P; subst; intros K; cbn [iter_inputs iter_fs].
    + cbn [scan_loop]. rewrite D, K, S. apply IH; assumption.
    + assert (Hh : hidden p = false).
      { destruct (hidden p) eqn:Q; [|reflexivity]. exfalso. apply H. apply hidden_spec. exact Q. }
      rewrite Hh. cbn [andb negb scan_loop]. rewrite D, K. cbn [updated_after negb]. rewrite S. apply IH; assumption.
    + cbn [scan_loop]. rewrite D, K, S. apply IH; assumption.
    + cbn [scan_loop]. rewrite D, K, S. apply IH; assumption.
Qed.
Lemma hints_scan {R} rd detect (scans : Z -> item R -> @answer R) ext ss rowss : recognised rd detect scans [] ss rowss ->
  scan rd detect scans None ext (Again ss) = Fine (List.concat rowss).
Proof.
  intros H. unfold scan. cbn [after_count]. rewrite (hints_loop _ _ _ ext _ _ _ H (None, None) []) by apply last_such_none. reflexivity.
Qed.
