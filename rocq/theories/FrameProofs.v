(** Strings: prefixes, suffixes, replacement and matching. *)
From Verif Require Import Base BaseFacts FrameModel FrameSpec.
From Coq Require Import Strings.String Strings.Ascii Lia ZifyBool.
Local Open Scope Z_scope.
Local Open Scope string_scope.

Lemma sapp_nil s : s ++ "" = s.
Proof. induction s; cbn; congruence. Qed.
Lemma sapp_assoc a b c : (a ++ b) ++ c = a ++ (b ++ c).
Proof. induction a; cbn; congruence. Qed.
Lemma slen_app a b : String.length (a ++ b) = (String.length a + String.length b)%nat.
Proof. induction a; cbn; congruence. Qed.
Lemma sapp_inv_head a b c : a ++ b = a ++ c -> b = c.
Proof. induction a; cbn; intros; [auto|]. injection H; auto. Qed.
Lemma sapp_inv_len a b c d : a ++ b = c ++ d -> String.length a = String.length c -> a = c /\ b = d.
Proof.
  revert c. induction a; intros [|y c]; cbn; intros H L; try discriminate; auto.
  injection H as -> H. destruct (IHa c H) as [-> ->]; auto.
Qed.
Lemma sapp_inv_tail a b c : a ++ c = b ++ c -> a = b.
Proof.
  intros H. destruct (sapp_inv_len a c b c H); auto.
  apply (f_equal String.length) in H. rewrite !slen_app in H. lia.
Qed.
Lemma slen_zero s : String.length s = 0%nat -> s = "".
Proof. destruct s; cbn; congruence. Qed.

Lemma str_prefix_spec p s : str_prefix p s = true <-> exists t, s = p ++ t.
Proof.
  revert s. induction p as [|a p IH]; intros s; cbn.
  - split; eauto.
  - destruct s as [|b s].
    + split; [discriminate|intros [t H]; discriminate].
    + rewrite Bool.andb_true_iff, Ascii.eqb_eq, IH. split.
      * intros [-> [t ->]]. eauto.
      * intros [t H]. injection H as -> ->. eauto.
Qed.

Lemma str_rev_acc s acc : str_rev s acc = str_rev s "" ++ acc.
Proof.
  revert acc. induction s as [|c s IH]; intros; cbn; auto.
  rewrite IH, (IH (String c "")), sapp_assoc. reflexivity.
Qed.
Lemma str_rev_app a b : str_rev (a ++ b) "" = str_rev b "" ++ str_rev a "".
Proof.
  induction a as [|c a IH]; cbn; [now rewrite sapp_nil|].
  rewrite str_rev_acc, IH, (str_rev_acc a (String c "")), sapp_assoc. reflexivity.
Qed.
Lemma str_rev_invol s : str_rev (str_rev s "") "" = s.
Proof.
  induction s as [|c s IH]; cbn; auto.
  rewrite (str_rev_acc s (String c "")), str_rev_app, IH. reflexivity.
Qed.
Lemma str_suffix_spec p s : str_suffix p s = true <-> exists t, s = t ++ p.
Proof.
  unfold str_suffix. rewrite str_prefix_spec. split; intros [t H].
  - exists (str_rev t ""). rewrite <- (str_rev_invol s), H, str_rev_app, !str_rev_invol. reflexivity.
  - exists (str_rev t ""). rewrite H, str_rev_app. reflexivity.
Qed.

(** ** Replacement *)
Lemma replace_skip pat new x b :
  replace_from (String.length x) pat new (x ++ b) = replace_from 0 pat new b.
Proof. induction x; cbn; auto. Qed.

Lemma replace_none pat new s : ~ occurs pat s -> str_replace pat new s = s.
Proof.
  unfold str_replace. induction s as [|c s IH]; intros H; auto.
  cbn [replace_from].
  destruct (str_prefix pat (String c s)) eqn:E.
  - apply str_prefix_spec in E. destruct E as [t E]. exfalso. apply H. exists "", t. exact E.
  - rewrite IH; auto. intros [a [b E']]. apply H. exists (String c a), b. cbn. congruence.
Qed.

Lemma replace_first pat new a b : pat <> "" ->
  (forall a' b', a ++ pat ++ b = a' ++ pat ++ b' -> (String.length a <= String.length a')%nat) ->
  str_replace pat new (a ++ pat ++ b) = a ++ new ++ str_replace pat new b.
Proof.
  intros Hp. unfold str_replace. induction a as [|c a IH]; intros H.
  - cbn [append]. destruct pat as [|x pat]; [congruence|].
    cbn [append replace_from].
    assert (E : str_prefix (String x pat) (String x (pat ++ b)) = true).
    { apply str_prefix_spec. exists b. reflexivity. }
    rewrite E. f_equal. cbn [String.length]. rewrite Nat.sub_succ, Nat.sub_0_r. apply replace_skip.
  - cbn [append replace_from].
    destruct (str_prefix pat (String c (a ++ pat ++ b))) eqn:E.
    + apply str_prefix_spec in E. destruct E as [t E].
      specialize (H "" t E). cbn in H. lia.
    + f_equal. apply IH. intros a' b' E'.
      specialize (H (String c a') b'). cbn in H. rewrite E' in H. specialize (H eq_refl). lia.
Qed.

Lemma replace_len pat s : (String.length (str_replace pat "" s) <= String.length s)%nat.
Proof.
  unfold str_replace. generalize 0%nat as k. induction s as [|c s IH]; intros k; cbn [replace_from]; auto.
  destruct k as [|k].
  - destruct (str_prefix pat (String c s)); cbn [append String.length].
    + specialize (IH (String.length pat - 1)%nat). lia.
    + specialize (IH 0%nat). lia.
  - specialize (IH k). cbn [String.length]. lia.
Qed.
Lemma replace_occ pat s : pat <> "" -> occurs pat s ->
  (String.length (str_replace pat "" s) < String.length s)%nat.
Proof.
  intros Hp. unfold str_replace. induction s as [|c s IH]; intros [a [b E]].
  - destruct a, pat; cbn in E; congruence.
  - cbn [replace_from]. destruct (str_prefix pat (String c s)) eqn:F.
    + cbn [append String.length].
      enough (forall k t, (String.length (replace_from k pat "" t) <= String.length t)%nat) as G
        by (specialize (G (String.length pat - 1)%nat s); lia).
      clear. intros k t. revert k. induction t as [|c t IH]; intros k; cbn [replace_from]; auto.
      destruct k as [|k].
      * destruct (str_prefix pat (String c t)); cbn [append String.length].
        -- specialize (IH (String.length pat - 1)%nat). lia.
        -- specialize (IH 0%nat). lia.
      * specialize (IH k). cbn [String.length]. lia.
    + cbn [String.length]. destruct a as [|c' a].
      * exfalso. cbn in E. assert (str_prefix pat (String c s) = true); [|congruence].
        apply str_prefix_spec. exists b. exact E.
      * cbn in E. injection E as -> E.
        assert (occurs pat s) as O by (exists a, b; exact E). specialize (IH O). lia.
Qed.

(** Paths stored relative to the directory. *)
Lemma base_path_nonempty base : base ++ "/" <> "".
Proof. destruct base; discriminate. Qed.
Lemma remove_base_prefix base rel :
  remove_base_path base (join_path base rel) = str_replace (base ++ "/") "" rel.
Proof.
  unfold remove_base_path, join_path.
  assert (E : base ++ "/" ++ rel = "" ++ (base ++ "/") ++ rel) by (rewrite sapp_assoc; reflexivity).
  rewrite E, replace_first; auto using base_path_nonempty. cbn; lia.
Qed.
Lemma base_path_roundtrip base rel :
  join_path base (remove_base_path base (join_path base rel)) = join_path base rel <->
  ~ occurs (base ++ "/") rel.
Proof.
  rewrite remove_base_prefix. split.
  - intros H O. unfold join_path in H. apply sapp_inv_head in H. apply sapp_inv_head in H.
    pose proof (replace_occ _ _ (base_path_nonempty base) O). rewrite H in H0. lia.
  - intros H. rewrite replace_none; auto.
Qed.
(** Paths outside the directory are stored unchanged and come back prefixed. *)
Lemma foreign_path base path : ~ occurs (base ++ "/") path -> remove_base_path base path = path.
Proof. apply replace_none. Qed.

Lemma suffix_key base suf : suf = "_max" \/ suf = "_min" -> plain_key (base ++ suf) ->
  str_replace suf "" (base ++ suf) = base.
Proof.
  intros Hs Hk.
  assert (E : base ++ suf = base ++ suf ++ "") by now rewrite sapp_nil.
  rewrite E, replace_first.
  - cbn. apply sapp_nil.
  - destruct Hs; subst; discriminate.
  - intros a' b' H. rewrite sapp_nil in H.
    assert (b' = "").
    { eapply (Hk suf a' b' Hs); eauto. }
    subst. rewrite sapp_nil in H. apply sapp_inv_tail in H. subst. lia.
Qed.

(** ** Matching *)
Lemma glob_star p s : glob (String star p) s =
  glob p s || match s with "" => false | String _ s' => glob (String star p) s' end.
Proof. destruct s; reflexivity. Qed.

Lemma glob_spec p s : glob p s = true <-> Matches p s.
Proof.
  split.
  - revert s. induction p as [|c p IH]; intros s H.
    + destruct s; [constructor|discriminate].
    + destruct (Ascii.eqb_spec c star) as [->|Hn].
      * induction s as [|d s IHs]; rewrite glob_star in H.
        -- apply M_star0, IH. now destruct (glob p "").
        -- apply Bool.orb_true_iff in H. destruct H as [H|H].
           ++ apply M_star0, IH, H.
           ++ apply M_starS, IHs, H.
      * cbn [glob] in H. rewrite (proj2 (Ascii.eqb_neq c star) Hn) in H.
        destruct s as [|d s]; [discriminate|].
        apply Bool.andb_true_iff in H. destruct H as [H1 H2].
        destruct (Ascii.eqb_spec c quest) as [->|Hq].
        -- apply M_quest, IH, H2.
        -- cbn in H1. apply Ascii.eqb_eq in H1. subst. apply M_char; auto.
  - induction 1.
    + reflexivity.
    + change "*"%char with star. rewrite glob_star, IHMatches. reflexivity.
    + change "*"%char with star. rewrite glob_star. cbv iota. change star with "*"%char. rewrite IHMatches.
      apply Bool.orb_true_r.
    + exact IHMatches.
    + cbn [glob]. rewrite (proj2 (Ascii.eqb_neq c star)) by auto. rewrite Ascii.eqb_refl, Bool.orb_true_r. exact IHMatches.
Qed.
