(** Proofs for C38: entries tell apart calls with arguments of other texts. *)
From Verif Require Import Base BaseFacts FrameModel CmModel AttrsModel AttrsSpec HistoryModel HistorySpec HistoryProofs5.
From Coq Require Import Strings.String Strings.Ascii Permutation Sorted Lia.
Local Open Scope list_scope.
Local Open Scope string_scope.

(** What [repr] wrote can be read again. *)
Definition unhex (c : ascii) : nat := let n := nat_of_ascii c in if Nat.ltb n 58 then (n - 48)%nat else (n - 87)%nat.
Definition read_one (s : string) : option (ascii * string) :=
  match s with
  | String "\" (String "t" r) => Some (ascii_of_nat 9, r)
  | String "\" (String "n" r) => Some (ascii_of_nat 10, r)
  | String "\" (String "r" r) => Some (ascii_of_nat 13, r)
  | String "\" (String "x" (String a (String b r))) => Some (ascii_of_nat (unhex a * 16 + unhex b), r)
  | String "\" (String c r) => Some (c, r)
  | String c r => Some (c, r)
  | EmptyString => None
  end.
Lemma escape_read q c X : q = single_quote \/ q = double_quote -> read_one (escape q c ++ X) = Some (c, X).
Proof.
  intros [-> | ->]; destruct c as [[] [] [] [] [] [] [] []]; reflexivity.
Qed.
Lemma escape_end q c X : q = single_quote \/ q = double_quote -> exists d Y, escape q c ++ X = String d Y /\ d <> q.
Proof.
  intros [-> | ->]; destruct c as [[] [] [] [] [] [] [] []]; (do 2 eexists; split; [reflexivity|discriminate]).
Qed.
Lemma app_assoc_s (a b c : string) : (a ++ b) ++ c = a ++ (b ++ c).
Proof. induction a as [|x a IH]; cbn; [reflexivity|now rewrite IH]. Qed.
Lemma escape_all_cut q : q = single_quote \/ q = double_quote -> forall s s' r r',
  escape_all q s ++ String q r = escape_all q s' ++ String q r' -> s = s' /\ r = r'.
Proof.
  intros Q. induction s as [|c s IH]; intros [|c' s'] r r'; cbn [escape_all]; rewrite ?app_assoc_s; intros E.
  - cbn in E. split; [reflexivity|congruence].
  - exfalso. destruct (escape_end q c' (escape_all q s' ++ String q r') Q) as (d & Y & E1 & N). rewrite E1 in E. cbn in E. congruence.
  - exfalso. destruct (escape_end q c (escape_all q s ++ String q r) Q) as (d & Y & E1 & N). rewrite E1 in E. cbn in E. congruence.
  - assert (E1 := escape_read q c (escape_all q s ++ String q r) Q). rewrite E, (escape_read q c' _ Q) in E1.
    assert (c' = c) by congruence. assert (E2 : escape_all q s' ++ String q r' = escape_all q s ++ String q r) by congruence.
    destruct (IH s' r r') as (-> & ->); [now symmetry|]. now subst.
Qed.
Lemma repr_form s : exists q, (q = single_quote \/ q = double_quote) /\ py_repr s = String q (escape_all q s ++ String q "").
Proof. unfold py_repr. destruct (_ && _)%bool; eexists; (split; [|reflexivity]); auto. Qed.
Lemma repr_cut s s' r r' : py_repr s ++ r = py_repr s' ++ r' -> s = s' /\ r = r'.
Proof.
  destruct (repr_form s) as (q & Q & ->). destruct (repr_form s') as (q' & Q' & ->).
  cbn [append]. intros E. assert (q' = q) by congruence. subst q'.
  rewrite !app_assoc_s in E. cbn [append] in E. apply (escape_all_cut q Q). congruence.
Qed.

Lemma without_cons c d s : without c (String d s) -> d <> c /\ without c s.
Proof.
  intros H. split.
  - intros ->. exact (H "" s eq_refl).
  - intros a b E. apply (H (String d a) b). cbn. now rewrite E.
Qed.
Lemma name_cut c k k' r r' : without c k -> without c k' -> k ++ String c r = k' ++ String c r' -> k = k' /\ r = r'.
Proof.
  revert k'. induction k as [|d k IH]; intros [|d' k'] H H' E; cbn in E.
  - split; congruence.
  - destruct (without_cons _ _ _ H'). congruence.
  - destruct (without_cons _ _ _ H). congruence.
  - apply without_cons in H as (_ & H). apply without_cons in H' as (_ & H'). destruct (IH k' H H') as (-> & ->); [congruence|]. split; congruence.
Qed.
Lemma mention_cut e e' r r' : without "=" (fst e) -> without "=" (fst e') -> mention e ++ r = mention e' ++ r' ->
  fst e = fst e' /\ format_values (snd e) = format_values (snd e') /\ r = r'.
Proof.
  unfold mention. intros H H' E. rewrite !app_assoc_s in E. destruct (name_cut "=" (fst e) (fst e') _ _ H H' E) as (E1 & E2).
  apply repr_cut in E2. tauto.
Qed.
Lemma mention_long e c r : mention e ++ r <> String c "".
Proof.
  unfold mention. rewrite !app_assoc_s. destruct (fst e) as [|a [|b k]]; cbn; intros E; injection E; intros; discriminate.
Qed.
Lemma join_cut l l' : Forall (fun e => without "=" (fst e)) l -> Forall (fun e => without "=" (fst e)) l' ->
  str_join "," (map mention l) ++ ")" = str_join "," (map mention l') ++ ")" ->
  map (fun e => (fst e, format_values (snd e))) l = map (fun e => (fst e, format_values (snd e))) l'.
Proof.
  intros F. revert l'. induction F as [|e l H F IH]; intros l' F' E.
  - destruct F' as [|e' l' H' F']; [reflexivity|]. exfalso. cbn [map str_join append] in E. symmetry in E. destruct l'; cbn [map] in E.
    + exact (mention_long _ _ _ E).
    + rewrite app_assoc_s in E. exact (mention_long _ _ _ E).
  - destruct F' as [|e' l' H' F'].
    { exfalso. cbn [map str_join append] in E. destruct l; cbn [map] in E.
      + exact (mention_long _ _ _ E).
      + rewrite app_assoc_s in E. exact (mention_long _ _ _ E). }
    assert (C : forall m, str_join "," (mention e :: m) = mention e ++ match m with [] => "" | _ => "," ++ str_join "," m end).
    { intros [|x m]; cbn [str_join]; [|reflexivity]. clear. induction (mention e) as [|y t IH]; [reflexivity|]. cbn. now rewrite <- IH. }
    assert (C' : forall m, str_join "," (mention e' :: m) = mention e' ++ match m with [] => "" | _ => "," ++ str_join "," m end).
    { intros [|x m]; cbn [str_join]; [|reflexivity]. clear. induction (mention e') as [|y t IH]; [reflexivity|]. cbn. now rewrite <- IH. }
    cbn [map] in E. rewrite C, C', !app_assoc_s in E. apply mention_cut in E as (E1 & E2 & E3); [|assumption..].
    cbn [map]. rewrite E1, E2. f_equal.
    destruct l as [|x l], l' as [|x' l']; cbn [map append] in E3; try discriminate; [reflexivity|].
    apply IH; [exact F'|]. cbn [map]. congruence.
Qed.

Lemma join_concat sep l : str_join sep l = String.concat sep l.
Proof. induction l as [|x [|y t] IH]; [reflexivity..|]. change (x ++ sep ++ str_join sep (y :: t) = x ++ sep ++ String.concat sep (y :: t)). now rewrite IH. Qed.
Section Ind.
Variable P : pyval -> Prop.
Hypothesis Hn : P PNone.
Hypothesis Ht : forall s, P (PText s).
Hypothesis Hl : forall l, Forall P l -> P (PList l).
Hypothesis Hu : forall l, Forall P l -> P (PTuple l).
Hypothesis Hp : P PPatch.
Fixpoint pyval_all (v : pyval) : P v :=
  match v with
  | PNone => Hn
  | PText s => Ht s
  | PList l => Hl l ((fix go l : Forall P l := match l with [] => Forall_nil P | x :: t => Forall_cons x (pyval_all x) (go t) end) l)
  | PTuple l => Hu l ((fix go l : Forall P l := match l with [] => Forall_nil P | x :: t => Forall_cons x (pyval_all x) (go t) end) l)
  | PPatch => Hp
  end.
End Ind.
Lemma shows_format v : forall s, shows v s <-> format_values v = s.
Proof.
  induction v as [|s|l IH|l IH|] using pyval_all; intros t.
  1, 2, 5: split; [intros H; inversion H; reflexivity|intros <-; constructor].
  all: assert (K : forall ss, Forall2 shows l ss <-> map format_values l = ss) by
    (induction IH as [|x l Hx F IHF]; intros ss;
     [split; [intros H; inversion H; reflexivity|intros <-; constructor]|
      split; [intros H; inversion H; subst; cbn [map]; f_equal; [now apply Hx|now apply IHF]
             |intros <-; cbn [map]; constructor; [now apply Hx|now apply IHF]]]).
  all: cbn [format_values]; rewrite join_concat; split;
    [intros H; inversion H as [| |? ss F|? ss F|]; subst; apply K in F; now rewrite F|intros <-; constructor; now apply K].
Qed.

Theorem told_apart name name' g g' pos pos' kw kw' t :
  names_apart g -> names_apart g' -> NoDup (map fst kw) -> NoDup (map fst kw') ->
  without "(" name -> without "(" name' ->
  (forall p s, given g pos kw p s -> without "=" p) -> (forall p s, given g' pos' kw' p s -> without "=" p) ->
  call_string name g pos kw = Ok t -> call_string name' g' pos' kw' = Ok t ->
  name = name' /\ forall p s, given g pos kw p s <-> given g' pos' kw' p s.
Proof.
  intros Na Na' ND ND' W W' Wp Wp' E E'.
  destruct (entry_text name g pos kw t Na ND E) as (l & a & x & T & _ & P & _ & A & _ & X).
  destruct (entry_text name' g' pos' kw' t Na' ND' E') as (l' & a' & x' & T' & _ & P' & _ & A' & _ & X').
  rewrite T in T'. destruct (name_cut "(" name name' _ _ W W' T') as (Hn & Ej). split; [exact Hn|].
  apply Permutation_map_inv in P as (m & -> & P). apply Permutation_map_inv in P' as (m' & -> & P').
  assert (G : forall p v, In (p, v) m <-> argument g pos kw p v \/ extra_argument g kw p v).
  { intros p v. rewrite <- A, <- X, <- in_app_iff. split; apply Permutation_in; [now symmetry|exact P]. }
  assert (G' : forall p v, In (p, v) m' <-> argument g' pos' kw' p v \/ extra_argument g' kw' p v).
  { intros p v. rewrite <- A', <- X', <- in_app_iff. split; apply Permutation_in; [now symmetry|exact P']. }
  assert (J : map (fun e => (fst e, format_values (snd e))) m = map (fun e => (fst e, format_values (snd e))) m').
  { apply join_cut; [| |exact Ej]; apply Forall_forall; intros [p v] I; cbn [fst].
    - apply (Wp p (format_values v)). exists v. split; [now apply G|now apply shows_format].
    - apply (Wp' p (format_values v)). exists v. split; [now apply G'|now apply shows_format]. }
  assert (Y : forall p s, given g pos kw p s <-> In (p, s) (map (fun e => (fst e, format_values (snd e))) m)).
  { intros p s. rewrite in_map_iff. split.
    - intros (v & H & Sh). exists (p, v). split; [cbn; f_equal; now apply shows_format|now apply G].
    - intros ([p' v] & Eq & I). cbn in Eq. injection Eq as -> <-. exists v. split; [now apply G|now apply shows_format]. }
  assert (Y' : forall p s, given g' pos' kw' p s <-> In (p, s) (map (fun e => (fst e, format_values (snd e))) m')).
  { intros p s. rewrite in_map_iff. split.
    - intros (v & H & Sh). exists (p, v). split; [cbn; f_equal; now apply shows_format|now apply G'].
    - intros ([p' v] & Eq & I). cbn in Eq. injection Eq as -> <-. exists v. split; [now apply G'|now apply shows_format]. }
  intros p s. rewrite Y, Y', J. tauto.
Qed.
