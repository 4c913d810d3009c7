(** DASDAE files: dicts written one over another, and strings. *)
From Verif Require Import Base BaseFacts CoordModel NdModel FrameModel FrameSpec FrameProofs FrameProofs5 ChunkModel CmModel CmProofs CmProofs5
  AttrsModel AttrsSpec AttrsProofs AttrsProofs2 AttrsProofs8 HistoryProofs4 DasdaeModel DasdaeSpec.
From Coq Require Import Strings.String Strings.Ascii Permutation.
Local Open Scope Z_scope.
Local Open Scope list_scope.

(** ** put_all *)
Section Put.
Context {V : Type}.
Implicit Types new old : list (string * V).

Lemma put_assoc new : forall old k, NoDup (map fst new) ->
  assoc k (put_all new old) = match assoc k new with Some v => Some v | None => assoc k old end.
Proof.
  unfold put_all. induction new as [|(j & w) new IH]; intros old k ND; [reflexivity|]. cbn [fold_left fst snd map] in *. inversion ND; subst.
  rewrite IH by assumption. cbn [assoc]. destruct (String.eqb_spec k j) as [->|N].
  - assert (Z : assoc j new = None) by now apply assoc_None. rewrite Z. apply assoc_set_same.
  - destruct (assoc k new); [reflexivity|]. now apply assoc_set_other.
Qed.
Lemma put_keys new : forall old k, In k (map fst (put_all new old)) <-> In k (map fst new) \/ In k (map fst old).
Proof.
  unfold put_all. induction new as [|(j & w) new IH]; intros old k; cbn [fold_left fst snd map In]; [tauto|].
  rewrite IH, In_assoc_set. intuition congruence.
Qed.
Lemma put_nodup new : forall old, NoDup (map fst old) -> NoDup (map fst (put_all new old)).
Proof.
  unfold put_all. induction new as [|(j & w) new IH]; intros old ND; cbn [fold_left fst snd]; [exact ND|]. apply IH. now apply NoDup_assoc_set.
Qed.
Lemma put_app l l' old : put_all (l ++ l') old = put_all l' (put_all l old).
Proof. unfold put_all. apply fold_left_app. Qed.
Lemma put_fresh new : forall old, NoDup (map fst old ++ map fst new) -> put_all new old = old ++ new.
Proof.
  unfold put_all. induction new as [|(j & w) new IH]; intros old N; cbn [fold_left fst snd]; [now rewrite app_nil_r|]. cbn [map] in N.
  rewrite assoc_set_new.
  - rewrite IH; [now rewrite <- app_assoc|]. rewrite map_app. cbn [map fst]. now rewrite <- app_assoc.
  - apply NoDup_remove_2 in N. intros H. apply N. apply in_app_iff. now left.
Qed.
Lemma put_self new : NoDup (map fst new) -> put_all new [] = new.
Proof. intros N. now rewrite put_fresh. Qed.
Lemma assoc_ext_keys (a b : list (string * V)) : (forall k, assoc k a = assoc k b) -> forall k, In k (map fst a) <-> In k (map fst b).
Proof. intros E k. rewrite <- !assoc_In. now rewrite E. Qed.
Lemma assoc_ext_perm (a b : list (string * V)) : NoDup (map fst a) -> NoDup (map fst b) -> (forall k, assoc k a = assoc k b) ->
  Permutation (map fst a) (map fst b).
Proof. intros Na Nb E. apply NoDup_Permutation; auto. now apply assoc_ext_keys. Qed.
Lemma keys_with_ext prefix (a b : list (string * V)) : NoDup (map fst a) -> NoDup (map fst b) -> (forall k, assoc k a = assoc k b) ->
  keys_with prefix a = keys_with prefix b.
Proof. intros Na Nb E. unfold keys_with. f_equal. apply sort_strs_eq. now apply assoc_ext_perm. Qed.
Lemma keys_with_nodup prefix (a : list (string * V)) : NoDup (map fst a) -> NoDup (keys_with prefix a).
Proof. intros N. apply NoDup_filter. eapply Permutation_NoDup; [apply Permutation_sym, sort_strs_perm|exact N]. Qed.
Lemma keys_with_In prefix (a : list (string * V)) k : In k (keys_with prefix a) <-> In k (map fst a) /\ starts prefix k.
Proof.
  unfold keys_with. rewrite filter_In, str_prefix_starts. split; intros (H1 & H2); (split; [|exact H2]).
  - eapply Permutation_in; [apply sort_strs_perm|exact H1].
  - eapply Permutation_in; [apply Permutation_sym, sort_strs_perm|exact H1].
Qed.
End Put.

(** ** Strings *)
Lemma prefix_inj (p a b : string) : (p ++ a = p ++ b)%string -> a = b.
Proof. induction p as [|c p IH]; cbn; [auto|]. intros [= E]. now apply IH. Qed.
Lemma strip_prefix p k : p <> EmptyString -> ~ contains p k -> str_replace p EmptyString (p ++ k) = k.
Proof.
  intros P N. pose proof (FrameProofs.replace_first p EmptyString EmptyString k P) as R. cbn [append] in R. rewrite R.
  - apply replace_none. exact N.
  - intros a' b' _. cbn. lia.
Qed.
Lemma split_join c ds : ds <> [] -> (forall d, In d ds -> forall a b, d <> (a ++ String c b)%string) ->
  str_split c (str_join (String c EmptyString) ds) = ds.
Proof.
  induction ds as [|d ds IH]; intros N H; [contradiction|]. destruct ds as [|e ds].
  - cbn [str_join]. apply str_split_single. apply H. now left.
  - change (str_join (String c EmptyString) (d :: e :: ds)) with (d ++ String c (str_join (String c EmptyString) (e :: ds)))%string.
    assert (G : forall x s, (forall a b, x <> (a ++ String c b)%string) -> str_split c (x ++ String c s) = x :: str_split c s).
    { induction x as [|y x IHx]; intros s Hx.
      - cbn. now rewrite Ascii.eqb_refl.
      - cbn [append str_split]. destruct (Ascii.eqb_spec y c) as [->|Ny]; [exfalso; apply (Hx EmptyString x); reflexivity|].
        rewrite IHx; [reflexivity|]. intros a b E. apply (Hx (String y a) b). cbn. now rewrite E. }
    rewrite G; [|apply H; now left]. f_equal. apply IH; [discriminate|]. intros d' D'. apply H. now right.
Qed.
Lemma split_clean c s d : In d (str_split c s) -> forall a b, d <> (a ++ String c b)%string.
Proof.
  revert d. induction s as [|x s IH]; intros d.
  - intros [<-|[]] [|a0 a] b E; discriminate.
  - cbn [str_split]. destruct (Ascii.eqb_spec x c) as [->|N].
    + intros [<-|D]; [|now apply IH]. intros [|a0 a] b E; discriminate.
    + destruct (str_split_cons c s) as (h & t & S). rewrite S in *. intros [<-|D].
      * intros [|a0 a] b E; cbn in E; [congruence|]. injection E as -> E. exact (IH h (or_introl eq_refl) a b E).
      * apply IH. now right.
Qed.
