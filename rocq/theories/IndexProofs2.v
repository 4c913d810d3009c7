(** Updating the index: what every reachable world satisfies. *)
From Verif Require Import Base BaseFacts FrameModel IndexModel IndexSpec.
From Coq Require Import Strings.String Lia ZifyBool.
Local Open Scope Z_scope.

Definition upd_ok (w : world) (u : upd) : Prop :=
  u_start u <= w_clock w /\
  (u_phase u = Appended -> u_todo u = [] /\ forall x, In x (u_found u) -> In x (w_rows w)) /\
  (forall x, In x (u_found u) -> In x (w_ever w)) /\
  forall f, In f (w_files w) -> f_readable f = true -> f_write f < u_start u ->
    (eligible (u_since u) f = true /\ In (f_path f) (u_todo u)) \/
    In (f_path f, f_write f) (u_found u) \/ indexed w f.

Record winv (gran : Z) (w : world) : Prop := {
  wi_files : forall f, In f (w_files w) ->
    f_write f - gran <= f_mtime f /\ f_write f <= w_clock w /\
    lookup_file (f_path f) (w_files w) = Some f /\ In (f_path f, f_write f) (w_ever w);
  wi_upds : forall u, In u (w_upds w) -> upd_ok w u;
  wi_stamp : forall l, w_stamp w = Some l -> l <= w_clock w /\
    forall f, In f (w_files w) -> f_readable f = true -> f_write f < l -> indexed w f;
  wi_rows : forall x, In x (w_rows w) -> In x (w_ever w);
}.

Lemma lookup_file_in p fs f : lookup_file p fs = Some f -> In f fs /\ f_path f = p.
Proof. intros H. apply find_some in H. destruct H as [H E]. apply String.eqb_eq in E. auto. Qed.

Lemma lookup_put f fs p : lookup_file p (put_file f fs) =
  if String.eqb (f_path f) p then Some f else lookup_file p fs.
Proof.
  unfold lookup_file, put_file. cbn [find]. destruct (String.eqb_spec (f_path f) p) as [|N]; auto.
  induction fs as [|g fs IH]; cbn; auto.
  destruct (String.eqb_spec (f_path g) (f_path f)) as [E|E]; cbn.
  - destruct (String.eqb_spec (f_path g) p); [congruence|auto].
  - destruct (String.eqb_spec (f_path g) p); auto.
Qed.
Lemma in_put f fs g : In g (put_file f fs) -> g = f \/ (In g fs /\ f_path g <> f_path f).
Proof.
  unfold put_file. intros [H|H]; auto. apply filter_In in H. destruct H as [H E]. right. split; auto.
  apply Bool.negb_true_iff, String.eqb_neq in E. auto.
Qed.
Lemma lookup_drop p fs q : p <> q -> lookup_file q (drop_file p fs) = lookup_file q fs.
Proof.
  intros N. unfold lookup_file, drop_file. induction fs as [|g fs IH]; cbn; auto.
  destruct (String.eqb_spec (f_path g) p) as [E|E]; cbn.
  - destruct (String.eqb_spec (f_path g) q); [congruence|auto].
  - destruct (String.eqb_spec (f_path g) q); auto.
Qed.
Lemma in_drop p fs g : In g (drop_file p fs) -> In g fs /\ f_path g <> p.
Proof.
  unfold drop_file. intros H. apply filter_In in H. destruct H as [H E]. split; auto.
  apply Bool.negb_true_iff, String.eqb_neq in E. auto.
Qed.

Lemma upd_ok_files w w' u : upd_ok w u -> w_clock w <= w_clock w' ->
  (forall x, In x (w_rows w) -> In x (w_rows w')) ->
  (forall x, In x (w_ever w) -> In x (w_ever w')) ->
  (forall f, In f (w_files w') -> In f (w_files w) \/ w_clock w <= f_write f) ->
  upd_ok w' u.
Proof.
  intros (A & B & C & D) Hc Hr He Hf. split; [lia|]. split; [|split].
  - intros P. destruct (B P) as [B1 B2]. split; auto.
  - auto.
  - intros f Hin Hre Hw. destruct (Hf f Hin) as [Ho|Hn]; [|lia].
    destruct (D f Ho Hre Hw) as [?|[?|?]]; auto. right. right. unfold indexed in *. auto.
Qed.

Lemma scan_path_spec fs since p x : In x (scan_path fs since p) ->
  exists f, In f fs /\ f_path f = p /\ x = (f_path f, f_write f).
Proof.
  unfold scan_path. destruct (lookup_file p fs) as [f|] eqn:L; [|intros []].
  apply lookup_file_in in L. destruct L as [L1 L2].
  destruct (eligible since f && f_readable f); [|intros []]. intros [<-|[]]. exists f. rewrite L2. auto.
Qed.

Lemma in_mid {A} (x y : A) l1 l2 : In x (l1 ++ y :: l2) <-> x = y \/ In x (l1 ++ l2).
Proof. rewrite !in_app_iff. cbn. intuition. Qed.

Lemma winv_step gran w w' : gran <= slack -> winv gran w -> wstep gran w w' -> winv gran w'.
Proof.
  intros Hg I S. destruct I as [If Iu Is Ir]. destruct S.
  - (* tick *) constructor; cbn [w_clock w_files w_rows w_stamp w_upds w_ever].
    + intros f Hf. destruct (If f Hf) as (A & B & C & D). repeat split; auto. lia.
    + intros u Hu. apply (upd_ok_files w); cbn; auto. lia.
    + intros l Hl. destruct (Is l Hl) as [A B]. split; [lia|auto].
    + auto.
  - (* write *) constructor; cbn [w_clock w_files w_rows w_stamp w_upds w_ever].
    + intros f Hf. rewrite lookup_put. cbn [f_path]. apply in_put in Hf. destruct Hf as [->|[Hf N]].
      * cbn. rewrite String.eqb_refl. repeat split; auto; lia.
      * destruct (If f Hf) as (A & B & C & D). cbn in N.
        destruct (String.eqb_spec p (f_path f)); [congruence|]. split; [auto|]. split; [auto|]. split; [auto|]. now right.
    + intros u Hu. apply (upd_ok_files w); cbn; auto; [lia|].
      intros f Hf. apply in_put in Hf. destruct Hf as [->|[Hf _]]; cbn; auto. right; lia.
    + intros l Hl. destruct (Is l Hl) as [A B]. split; [lia|]. intros f Hf Hr Hw.
      apply in_put in Hf. destruct Hf as [->|[Hf _]]; cbn in *; [lia|]. unfold indexed in *; cbn. apply B; auto.
    + intros x Hx. right. auto.
  - (* remove *) constructor; cbn [w_clock w_files w_rows w_stamp w_upds w_ever].
    + intros f Hf. apply in_drop in Hf. destruct Hf as [Hf N]. destruct (If f Hf) as (A & B & C & D).
      repeat split; auto. rewrite lookup_drop; auto.
    + intros u Hu. apply (upd_ok_files w); cbn; auto; [lia|]. intros f Hf. apply in_drop in Hf. tauto.
    + intros l Hl. destruct (Is l Hl) as [A B]. split; [lia|]. intros f Hf Hr Hw. apply in_drop in Hf. apply B; tauto.
    + auto.
  - (* begin *) constructor; cbn [w_clock w_files w_rows w_stamp w_upds w_ever].
    + auto.
    + intros u [<-|Hu]; [|apply (upd_ok_files w); cbn; auto; lia].
      split; [cbn; lia|]. split; [cbn; discriminate|]. split; [intros ? []|].
      cbn. intros f Hf Hr Hw. destruct (w_stamp w) as [l|] eqn:E.
      * destruct (Is l eq_refl) as [A B]. destruct (Z_lt_le_dec (f_write f) l) as [L|L].
        -- right. right. unfold indexed; cbn. apply B; auto.
        -- left. split; [|auto]. cbn. destruct (If f Hf) as (C & _). apply Z.leb_le. lia.
      * left. split; [reflexivity|auto].
    + auto.
    + auto.
  - (* scan *) constructor; cbn [w_clock w_files w_rows w_stamp w_upds w_ever].
    + auto.
    + intros u' Hu'. unfold replace_upd in Hu'. apply in_mid in Hu'. destruct Hu' as [->|Hu'].
      2:{ apply (upd_ok_files w); cbn; auto; [|lia]. apply Iu. rewrite H. apply in_mid. auto. }
      assert (U : upd_ok w u) by (apply Iu; rewrite H; apply in_mid; auto).
      destruct U as (A & B & C & D). unfold scan_one. destruct (u_todo u) as [|p t] eqn:Et; [congruence|].
      split; [exact A|]. cbn. split; [|split].
      * intros P. destruct (B P) as [B1 _]. congruence.
      * intros x Hx. apply in_app_iff in Hx. destruct Hx as [Hx|Hx]; auto.
        apply scan_path_spec in Hx. destruct Hx as (f & Hf & _ & ->). now apply If.
      * intros f Hf Hr Hw. unfold indexed; cbn. destruct (D f Hf Hr Hw) as [[E1 E2]|[E|E]].
        -- destruct E2 as [E2|E2]; [|auto]. right. left. apply in_app_iff. right.
           unfold scan_path. destruct (If f Hf) as (_ & _ & L & _). rewrite E2, L, E1, Hr. now left.
        -- right. left. apply in_app_iff. auto.
        -- auto.
    + auto.
    + auto.
  - (* append *)
    assert (U : upd_ok w u) by (apply Iu; rewrite H; apply in_mid; auto).
    constructor; cbn [w_clock w_files w_rows w_stamp w_upds w_ever].
    + auto.
    + intros u' Hu'. unfold replace_upd in Hu'. apply in_mid in Hu'. destruct Hu' as [->|Hu'].
      2:{ apply (upd_ok_files w); cbn; auto; [apply Iu; rewrite H; apply in_mid; auto|lia|intros; apply in_app_iff; auto]. }
      destruct U as (A & B & C & D). split; [exact A|]. cbn. split; [|split; [auto|]].
      * intros _. split; [auto|]. intros x Hx. apply in_app_iff. auto.
      * intros f Hf Hr Hw. unfold indexed; cbn. destruct (D f Hf Hr Hw) as [[E1 E2]|[E|E]].
        -- rewrite H0 in E2. destruct E2.
        -- auto.
        -- right. right. apply in_app_iff. auto.
    + intros l Hl. destruct (Is l Hl) as [A B]. split; auto. intros. unfold indexed; cbn. apply in_app_iff. left. now apply B.
    + intros x Hx. apply in_app_iff in Hx. destruct Hx as [Hx|Hx]; auto. destruct U as (_ & _ & C & _). auto.
  - (* stamp *)
    assert (U : upd_ok w u) by (apply Iu; rewrite H; apply in_mid; auto).
    constructor; cbn [w_clock w_files w_rows w_stamp w_upds w_ever].
    + auto.
    + intros u' Hu'. apply (upd_ok_files w); cbn; auto; [|lia]. apply Iu. rewrite H. apply in_mid. auto.
    + intros l Hl. injection Hl as <-. destruct U as (A & B & C & D). split; [auto|].
      destruct (B H0) as [B1 B2]. intros f Hf Hr Hw. destruct (D f Hf Hr Hw) as [[E1 E2]|[E|E]].
      * rewrite B1 in E2. destruct E2.
      * unfold indexed; cbn. auto.
      * auto.
    + auto.
  - (* finish *) constructor; cbn [w_clock w_files w_rows w_stamp w_upds w_ever]; auto.
    intros u' Hu'. apply (upd_ok_files w); cbn; auto; [|lia]. apply Iu. rewrite H. apply in_mid. auto.
  - (* crash *) constructor; cbn [w_clock w_files w_rows w_stamp w_upds w_ever]; auto.
    intros u' Hu'. apply (upd_ok_files w); cbn; auto; [|lia]. apply Iu. rewrite H. apply in_mid. auto.
Qed.

Lemma winv_start gran : winv gran start_world.
Proof. constructor; cbn; try tauto. discriminate. Qed.
Lemma winv_reachable gran w : gran <= slack -> reachable gran w -> winv gran w.
Proof.
  intros Hg H. unfold reachable in H. remember start_world as w0 eqn:E. induction H; subst.
  - apply winv_start.
  - eapply winv_step; eauto.
Qed.

(** After the time stamp is stored, or when nothing was found. *)
Lemma update_complete gran w : gran <= slack -> reachable gran w ->
  forall l, w_stamp w = Some l -> forall f, In f (w_files w) -> f_readable f = true -> f_write f < l -> indexed w f.
Proof. intros Hg H l Hl. now apply (wi_stamp _ _ (winv_reachable _ _ Hg H)). Qed.

Lemma update_done gran w l1 u l2 : gran <= slack -> reachable gran w ->
  w_upds w = l1 ++ u :: l2 -> u_todo u = [] -> u_phase u = Appended \/ u_found u = [] ->
  forall f, In f (w_files w) -> f_readable f = true -> f_write f < u_start u -> indexed w f.
Proof.
  intros Hg H E Ht Hp f Hf Hr Hw.
  destruct (wi_upds _ _ (winv_reachable _ _ Hg H) u) as (A & B & C & D); [rewrite E; apply in_mid; auto|].
  destruct (D f Hf Hr Hw) as [[_ X]|[X|X]]; auto.
  - rewrite Ht in X. destruct X.
  - destruct Hp as [Hp|Hp]; [apply (B Hp); auto|]. rewrite Hp in X. destruct X.
Qed.

Lemma rows_real gran w : gran <= slack -> reachable gran w -> forall x, In x (w_rows w) -> In x (w_ever w).
Proof. intros Hg H. apply (wi_rows _ _ (winv_reachable _ _ Hg H)). Qed.

(** An update scanning files all older than its time stamp finds nothing. *)
Lemma quiet_scan fs since todo : (forall f, In f fs -> eligible since f = false) ->
  flat_map (scan_path fs since) todo = [].
Proof.
  intros H. induction todo as [|p t IH]; cbn; auto. rewrite IH, app_nil_r.
  unfold scan_path. destruct (lookup_file p fs) as [f|] eqn:L; auto.
  apply lookup_file_in in L. rewrite H by tauto. reflexivity.
Qed.
(** What one undisturbed scan collects: each eligible readable file once. *)
Fixpoint scan_all (n : nat) (fs : list file) (u : upd) : upd :=
  match n with O => u | S n => scan_all n fs (scan_one fs u) end.
Lemma scan_all_found fs : forall todo u, u_todo u = todo ->
  u_found (scan_all (List.length todo) fs u) = u_found u ++ flat_map (scan_path fs (u_since u)) todo /\
  u_todo (scan_all (List.length todo) fs u) = [].
Proof.
  induction todo as [|p t IH]; intros u E; cbn [List.length scan_all flat_map].
  - now rewrite app_nil_r.
  - destruct (IH (scan_one fs u)) as [A B]; [unfold scan_one; now rewrite E|].
    rewrite A, B. split; auto. unfold scan_one. rewrite E. cbn. now rewrite app_assoc.
Qed.
Lemma scan_all_spec fs since todo :
  (forall f, In f fs -> lookup_file (f_path f) fs = Some f) -> NoDup todo ->
  NoDup (flat_map (scan_path fs since) todo) /\
  forall p v, In (p, v) (flat_map (scan_path fs since) todo) <->
    In p todo /\ exists f, In f fs /\ f_path f = p /\ f_write f = v /\ f_readable f = true /\ eligible since f = true.
Proof.
  intros Hu. induction todo as [|q t IH]; intros ND; cbn [flat_map].
  - split; [constructor|]. cbn. tauto.
  - inversion ND as [|? ? Nq ND']; subst. destruct (IH ND') as [A B]. split.
    + unfold scan_path at 1. destruct (lookup_file q fs) as [f|] eqn:L; [|exact A].
      destruct (eligible since f && f_readable f); [|exact A]. constructor; [|exact A].
      intros Hin. apply B in Hin. tauto.
    + intros p v. rewrite in_app_iff, B. cbn [In]. split.
      * intros [H|[H1 H2]]; [|auto]. pose proof H as H'. unfold scan_path in H.
        destruct (lookup_file q fs) as [f|] eqn:L; [|destruct H].
        destruct (eligible since f && f_readable f) eqn:E; [|destruct H].
        apply Bool.andb_true_iff in E. apply lookup_file_in in L. destruct H as [H|[]]. injection H as <- <-.
        split; [auto|]. exists f. tauto.
      * intros [[->|H1] (f & Hf & Hp & Hv & Hr & He)].
        -- left. unfold scan_path. rewrite <- Hp, (Hu f Hf), He, Hr, Hv. now left.
        -- right. split; auto. exists f. auto.
Qed.
