(** Scanning: the generator protocol and the listing. *)
From Verif Require Import Base BaseFacts IoModel IoSpec.
From Coq Require Import Strings.String Strings.Ascii Lia ZArith.
Local Open Scope Z_scope.
Local Open Scope list_scope.

Lemma node_ind' (P : node -> Prop) : (forall s m, P (NFile s m)) ->
  (forall s m es, (forall e, In e es -> P e) -> P (NDir s m es)) -> forall n, P n.
Proof.
  intros F D. fix IH 1. intros [s m|s m es]; [apply F|apply D].
  induction es as [|e es IHe]; intros e' I; [destruct I|]. destruct I as [<-|I]; [apply IH|apply IHe, I].
Qed.

Lemma append_assoc a b c : ((a ++ b) ++ c)%string = (a ++ b ++ c)%string.
Proof. induction a; cbn; congruence. Qed.
Lemma append_length a b : String.length (a ++ b)%string = (String.length a + String.length b)%nat.
Proof. induction a; cbn; congruence. Qed.
Lemma append_inv a b c : (a ++ b = a ++ c)%string -> b = c.
Proof. induction a; cbn; intros H; auto. injection H; auto. Qed.
Lemma append_nil s : (s ++ "" = s)%string.
Proof. induction s; cbn; congruence. Qed.

Lemma substring_all s : String.substring 0 (String.length s) s = s.
Proof. induction s; cbn; congruence. Qed.
Lemma substring_app a e : String.substring (String.length a) (String.length e) (a ++ e)%string = e.
Proof. induction a; cbn; [apply substring_all|auto]. Qed.
Lemma substring_split s : forall k, (k <= String.length s)%nat ->
  s = (String.substring 0 k s ++ String.substring k (String.length s - k) s)%string.
Proof.
  induction s as [|c s IH]; intros [|k] H; cbn in *; auto; try lia.
  - f_equal. rewrite substring_all. reflexivity.
  - f_equal. apply IH. lia.
Qed.
Lemma ends_with_spec s e : ends_with s e = true <-> exists a, s = (a ++ e)%string.
Proof.
  unfold ends_with. rewrite andb_true_iff, Nat.leb_le, String.eqb_eq. split.
  - intros [L E]. exists (String.substring 0 (String.length s - String.length e) s).
    rewrite (substring_split s (String.length s - String.length e)) at 1 by lia. f_equal.
    replace (String.length s - (String.length s - String.length e))%nat with (String.length e) by lia. exact E.
  - intros [a ->]. rewrite append_length. split; [lia|].
    replace (String.length a + String.length e - String.length e)%nat with (String.length a) by lia. apply substring_app.
Qed.
Lemma hidden_spec s : hidden s = true <-> is_hidden s.
Proof.
  unfold hidden, is_hidden, starts_with. destruct s as [|c s]; cbn [String.append].
  - split; [discriminate|intros [r H]; discriminate].
  - rewrite Ascii.eqb_eq. split; [intros <-; exists s; reflexivity|intros [r H]; injection H as -> _; reflexivity].
Qed.
Lemma hidden_false s : hidden s = false <-> ~ is_hidden s.
Proof. rewrite <- hidden_spec. destruct (hidden s); split; intros; congruence. Qed.

Section Files.
Context {R : Type} (ext : option string) (timestamp : option Z).

Lemma file_ok_spec name m : file_ok ext timestamp name m = true <-> has_ext ext name /\ recent timestamp m /\ ~ is_hidden name.
Proof.
  unfold file_ok, has_ext, recent. rewrite !andb_true_iff, negb_true_iff, hidden_false.
  destruct ext as [e|], timestamp as [t|]; rewrite ?ends_with_spec, ?Z.leb_le; intuition.
Qed.

(** The listing as a function. *)
Context (claimedb : string -> Z -> bool).
Fixpoint items_fs (path : string) (n : node) {struct n} : list (item R) :=
  match n with
  | NFile _ _ => [IFile path]
  | NDir _ mt entries =>
      let cs := (fix loop (es : list node) : list (item R) :=
        match es with
        | [] => []
        | e :: es' =>
            match e with
            | NFile name m => if file_ok ext timestamp name m then IFile (join path name) :: loop es' else loop es'
            | NDir name _ _ => if hidden name then loop es' else items_fs (join path name) e ++ loop es'
            end
        end) entries in
      if hidden path then cs else IDir path mt :: if claimedb path mt then [] else cs
  end.
Fixpoint items_dir (path : string) (es : list node) : list (item R) :=
  match es with
  | [] => []
  | e :: es' =>
      match e with
      | NFile name m => if file_ok ext timestamp name m then IFile (join path name) :: items_dir path es' else items_dir path es'
      | NDir name _ _ => if hidden name then items_dir path es' else items_fs (join path name) e ++ items_dir path es'
      end
  end.
Lemma items_fs_dir path s m es :
  items_fs path (NDir s m es) = if hidden path then items_dir path es else IDir path m :: if claimedb path m then [] else items_dir path es.
Proof.
  cbn [items_fs].
  assert (E : forall es, (fix loop (es : list node) : list (item R) :=
        match es with
        | [] => []
        | e :: es' =>
            match e with
            | NFile name m => if file_ok ext timestamp name m then IFile (join path name) :: loop es' else loop es'
            | NDir name _ _ => if hidden name then loop es' else items_fs (join path name) e ++ loop es'
            end
        end) es = items_dir path es).
  { clear. induction es as [|[s m|s m es0] es IH]; auto; cbn [items_dir]; rewrite <- IH; reflexivity. }
  rewrite !E. reflexivity.
Qed.
Fixpoint items_in (ss : list (@source R)) : list (item R) :=
  match ss with
  | [] => []
  | SHere p n :: ss => items_fs p n ++ items_in ss
  | SMissing p :: ss => IFile p :: items_in ss
  | SPatch a :: ss => IPatch a :: items_in ss
  | SThing o :: ss => IObject o :: items_in ss
  end.

Context (claimed : string -> Z -> Prop) (claimed_iff : forall p m, claimedb p m = true <-> claimed p m).
Lemma claimed_not p m : claimedb p m = false <-> ~ claimed p m.
Proof. rewrite <- claimed_iff. destruct (claimedb p m); split; congruence. Qed.

Lemma listing_iff n : forall p l, listing ext timestamp claimed p n l <-> l = items_fs p n.
Proof.
  induction n as [s m|s m es IH] using node_ind'; intros p l.
  - split; [intros H; inversion H; reflexivity|intros ->; constructor].
  - assert (C : forall l, contents ext timestamp claimed p es l <-> l = items_dir p es).
    { clear l. induction es as [|e es IHe]; intros l.
      - split; [intros H; inversion H; reflexivity|intros ->; constructor].
      - specialize (IHe (fun e' I => IH e' (or_intror I))). destruct e as [s' m'|s' m' es']; cbn [items_dir].
        + destruct (file_ok ext timestamp s' m') eqn:F.
          * apply file_ok_spec in F. split.
            { intros H; inversion H; subst; [f_equal; now apply IHe|contradiction]. }
            { intros ->. destruct F as (F1 & F2 & F3). constructor; auto. now apply IHe. }
          * assert (F' : ~ (has_ext ext s' /\ recent timestamp m' /\ ~ is_hidden s')) by (rewrite <- file_ok_spec; congruence).
            split.
            { intros H; inversion H; subst; [exfalso; apply F'; auto|now apply IHe]. }
            { intros ->. apply co_other; auto. now apply IHe. }
        + destruct (hidden s') eqn:F.
          * apply hidden_spec in F. split.
            { intros H; inversion H; subst; [now apply IHe|contradiction]. }
            { intros ->. apply co_hidden; auto. now apply IHe. }
          * apply hidden_false in F. specialize (IH _ (or_introl eq_refl) (join p s')). split.
            { intros H; inversion H; subst; [contradiction|]. f_equal; [now apply IH|now apply IHe]. }
            { intros ->. apply co_dir; auto; [now apply IH|now apply IHe]. } }
    rewrite items_fs_dir. destruct (hidden p) eqn:F.
    + apply hidden_spec in F. split.
      * intros H; inversion H; subst; try contradiction. now apply C.
      * intros ->. apply li_hidden; auto. now apply C.
    + apply hidden_false in F. destruct (claimedb p m) eqn:D.
      * apply claimed_iff in D. split; [intros H; inversion H; subst; try contradiction; auto|intros ->; now apply li_claimed].
      * apply claimed_not in D. split.
        { intros H; inversion H; subst; try contradiction. f_equal. now apply C. }
        { intros ->. apply li_dir; auto. now apply C. }
Qed.
Lemma listing_in_iff ss : forall l, listing_in ext timestamp claimed ss l <-> l = items_in ss.
Proof.
  induction ss as [|[p n|p|a|o] ss IH]; intros l; cbn [items_in]; split.
  - intros H; inversion H; reflexivity.
  - intros ->; constructor.
  - intros H; inversion H; subst. f_equal; [now apply listing_iff|now apply IH].
  - intros ->. constructor; [now apply listing_iff|now apply IH].
  - intros H; inversion H; subst. f_equal. now apply IH.
  - intros ->. constructor. now apply IH.
  - intros H; inversion H; subst. f_equal. now apply IH.
  - intros ->. constructor. now apply IH.
  - intros H; inversion H; subst. f_equal. now apply IH.
  - intros ->. constructor. now apply IH.
Qed.

Lemma found_iff n : forall p i, Found ext timestamp claimed p n i <-> In i (items_fs p n).
Proof.
  induction n as [s m|s m es IH] using node_ind'; intros p i.
  - cbn. split; [intros H; inversion H; auto|intros [<-|[]]; constructor].
  - assert (C : In i (items_dir p es) <->
      (exists s' m', In (NFile s' m') es /\ (has_ext ext s' /\ recent timestamp m' /\ ~ is_hidden s') /\ i = IFile (join p s')) \/
      (exists s' m' es', In (NDir s' m' es') es /\ ~ is_hidden s' /\ Found ext timestamp claimed (join p s') (NDir s' m' es') i)).
    { clear - IH. induction es as [|e es IHe]; cbn [items_dir].
      - split; [intros []|intros [(? & ? & [] & _)|(? & ? & ? & [] & _)]].
      - specialize (IHe (fun e' I => IH e' (or_intror I))).
        assert (W : In i (items_dir p es) ->
          (exists s' m', In (NFile s' m') (e :: es) /\ (has_ext ext s' /\ recent timestamp m' /\ ~ is_hidden s') /\ i = IFile (join p s')) \/
          (exists s' m' es', In (NDir s' m' es') (e :: es) /\ ~ is_hidden s' /\ Found ext timestamp claimed (join p s') (NDir s' m' es') i)).
        { intros H. apply IHe in H. destruct H as [(s' & m' & H & K)|(s' & m' & es' & H & K)].
          - left. exists s', m'. split; [now right|exact K].
          - right. exists s', m', es'. split; [now right|exact K]. }
        assert (W' : (exists s' m', In (NFile s' m') es /\ (has_ext ext s' /\ recent timestamp m' /\ ~ is_hidden s') /\ i = IFile (join p s')) \/
          (exists s' m' es', In (NDir s' m' es') es /\ ~ is_hidden s' /\ Found ext timestamp claimed (join p s') (NDir s' m' es') i) ->
          In i (items_dir p es)) by (intros; now apply IHe).
        clear IHe. split.
        + destruct e as [s' m'|s' m' es'].
          * destruct (file_ok ext timestamp s' m') eqn:F; auto. intros [<-|H]; auto.
            left. exists s', m'. split; [now left|]. split; auto. now apply file_ok_spec.
          * destruct (hidden s') eqn:F; auto. intros H. apply in_app_or in H. destruct H as [H|H]; auto.
            right. exists s', m', es'. split; [now left|]. split; [now apply hidden_false|]. apply IH; [now left|exact H].
        + intros [(s' & m' & [->|I] & K & ->)|(s' & m' & es' & [->|I] & K & G)].
          * apply file_ok_spec in K. rewrite K. now left.
          * assert (In (IFile (join p s')) (items_dir p es)) by (apply W'; left; eauto 6).
            destruct e as [s0 m0|s0 m0 es0]; [destruct (file_ok ext timestamp s0 m0); auto; now right|].
            destruct (hidden s0); auto. apply in_or_app; auto.
          * apply hidden_false in K. rewrite K. apply in_or_app. left. apply IH; [now left|exact G].
          * assert (In i (items_dir p es)) by (apply W'; right; eauto 7).
            destruct e as [s0 m0|s0 m0 es0]; [destruct (file_ok ext timestamp s0 m0); auto; now right|].
            destruct (hidden s0); auto. apply in_or_app; auto. }
    rewrite items_fs_dir. split.
    + intros H. inversion H; subst.
      * destruct (hidden p) eqn:F; [apply hidden_spec in F; contradiction|now left].
      * assert (I : In (IFile (p ++ "/" ++ name')%string) (items_dir p es)) by (apply C; left; exists name', m'; auto).
        destruct (hidden p) eqn:F; auto. right. destruct (claimedb p m) eqn:D; auto.
        apply hidden_false in F. apply claimed_iff in D. destruct H3; contradiction.
      * assert (I : In i (items_dir p es)) by (apply C; right; exists name', m', es'; auto).
        destruct (hidden p) eqn:F; auto. right. destruct (claimedb p m) eqn:D; auto.
        apply hidden_false in F. apply claimed_iff in D. destruct H3; contradiction.
    + intros H.
      assert (K : (is_hidden p \/ ~ claimed p m) /\ In i (items_dir p es) -> Found ext timestamp claimed p (NDir s m es) i).
      { intros [K I]. apply C in I. destruct I as [(s' & m' & I & (K1 & K2 & K3) & ->)|(s' & m' & es' & I & K1 & K2)].
        - eapply found_entry; eauto.
        - eapply found_below; eauto. }
      destruct (hidden p) eqn:F.
      * apply K. split; auto. left. now apply hidden_spec.
      * apply hidden_false in F. destruct H as [<-|H]; [now constructor|]. destruct (claimedb p m) eqn:D; [destruct H|].
        apply K. split; auto. right. now apply claimed_not.
Qed.
End Files.
