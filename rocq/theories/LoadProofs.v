(** Reading with keywords: the filter on attributes. *)
From Verif Require Import Base BaseFacts CoordModel NdModel FrameModel FrameSpec FrameProofs FrameProofs2 FrameProofs3 FrameProofs4 FrameProofs5 ChunkModel CmModel CmProofs
  AttrsModel AttrsSpec AttrsProofs AttrsProofs8 DasdaeModel DasdaeSpec LoadModel LoadSpec.
From Coq Require Import Strings.String Strings.Ascii.
From Coq Require Import ZifyBool Lia.
Local Open Scope Z_scope.
Local Open Scope list_scope.

Lemma is_query_spec k r : is_query (k, r) = true <-> ~ not_filter k r.
Proof.
  unfold is_query, not_filter. cbn [fst snd]. rewrite !andb_true_iff, !negb_true_iff.
  assert (M : mem k non_keys = true <-> In k ["file_version"; "file_format"; "path"; "_modified"]%string) by apply mem_In'.
  assert (U : str_prefix "_" k = true <-> exists s, k = ("_" ++ s)%string).
  { destruct k as [|c k]; cbn [str_prefix].
    - split; [discriminate|]. intros (s & E). discriminate.
    - destruct (Ascii.eqb_spec "_" c) as [<-|N]; cbn [andb].
      + split; [intros _; now exists k|]. intros _. now destruct k.
      + split; [discriminate|]. intros (s & E). injection E as E _. congruence. }
  assert (L : nullish r = true <-> r = RVal ANone \/ r = RVal ANull).
  { destruct r as [[]|]; cbn; intuition congruence. }
  destruct (mem k non_keys), (str_prefix "_" k), (nullish r); intuition congruence.
Qed.

Lemma dump_value a k : tidy a -> assoc k (d_vals (dump a)) = attr_value a k.
Proof.
  intros T. unfold attr_value. destruct (String.eqb_spec k "dims") as [->|N]; [|now apply dump_assoc].
  now apply dump_dims.
Qed.
Lemma has_col_value a k : tidy a -> has_col (map fst (d_vals (dump a))) k <-> attr_value a k <> None.
Proof.
  intros T. unfold has_col. rewrite <- (dump_value a k T). rewrite <- assoc_In. split; [intros (v & ->); discriminate|].
  destruct (assoc k (d_vals (dump a))) as [v|]; [now exists v|congruence].
Qed.
Lemma row_value a k : tidy a -> val (attr_row a) k = match attr_value a k with Some v => scal_cell v | None => VNull end.
Proof.
  intros T. unfold val, get_cell, attr_row. cbn [f_cells]. rewrite <- (dump_value a k T).
  induction (d_vals (dump a)) as [|(n & v) l IH]; [reflexivity|]. cbn [map assoc fst snd]. destruct (String.eqb k n); [reflexivity|exact IH].
Qed.

Section Ask.
Variable a : attrs.
Hypothesis T : tidy a.
Notation cols := (map fst (d_vals (dump a))).

Lemma ask_bare k r : attr_askable a k r -> ~ has_col cols k ->
  (forall b, k <> (b ++ "_min")%string /\ k <> (b ++ "_max")%string) /\ ~ interval cols k.
Proof.
  intros H N. rewrite (has_col_value a k T) in N. unfold attr_askable in H. destruct (attr_value a k); [elim N; discriminate|].
  destruct H as (H1 & H2). split; [exact H1|]. intros (I1 & I2). apply (has_col_value a _ T) in I1, I2. destruct H2; contradiction.
Qed.
Lemma ask_fair k r e : attr_askable a k r -> ~ Refused cols [attr_row a] true k (rarg_query r) e.
Proof.
  intros H R. assert (C : has_col cols k -> exists v, attr_value a k = Some v).
  { intros I. apply (has_col_value a k T) in I. destruct (attr_value a k); [eauto|congruence]. }
  remember (rarg_query r) as v eqn:Ev. destruct R as [l N S|v base N S Nb|v base b N S B X|pt I S|base x y I S Iv O|v N S Iv V|s N S Iv L|x y N S Iv X|v Ig].
  - destruct (ask_bare k r H N) as (U & _). destruct S as (b & [S|S]); now apply (U b) in S.
  - destruct (ask_bare k r H N) as (U & _). destruct S as [S|S]; now apply (U base) in S.
  - destruct (ask_bare k r H N) as (U & _). destruct S as [S|S]; now apply (U base) in S.
  - destruct (C I) as (w & E). unfold attr_askable in H. rewrite E in H.
    destruct w, r as [[]|]; cbn [rarg_query scal_cell] in Ev; try discriminate; try contradiction.
    injection Ev as ->. destruct S as [S|(row & [<-|[]] & S)]; [contradiction|]. apply (S s). rewrite (row_value a k T), E. reflexivity.
  - destruct (C I) as (w & E). unfold attr_askable in H. rewrite E in H.
    destruct r as [[]|lo hi]; cbn [rarg_query scal_cell] in Ev; try discriminate.
    + destruct w; try contradiction. destruct l as [|u [|u' [|]]]; try discriminate. injection Ev as -> ->. destruct O as [[O|O]|[O|O]]; discriminate.
    + injection Ev as -> ->. destruct w; try contradiction; destruct lo; try contradiction; destruct hi; try contradiction; destruct O as [[O|O]|[O|O]]; discriminate.
  - now apply (ask_bare k r H N).
  - now apply (ask_bare k r H N).
  - now apply (ask_bare k r H N).
  - discriminate.
Qed.
Lemma ask_meets k r : attr_askable a k r -> meets cols (attr_row a) k (rarg_query r) <-> attr_answers a k r.
Proof.
  intros H. unfold meets. pose proof (has_col_value a k T) as HC. pose proof (row_value a k T) as V. unfold attr_answers, attr_askable in *.
  destruct (attr_value a k) as [w|] eqn:E.
  - assert (I : has_col cols k) by (apply HC; discriminate). rewrite V.
    transitivity (column_query (scal_cell w) (rarg_query r)); [tauto|].
    destruct w, r as [[]|[][]]; cbn [column_query rarg_query scal_cell scal_item]; try contradiction.
    + split; [intros Q; injection Q as Q; exact Q|now intros ->].
    + split; [intros (i & [<-|[<-|[]]] & Q); cbn [item_is] in Q; injection Q as Q; auto|].
      intros [-> | ->]; eexists; [split; [left; reflexivity|reflexivity]|split; [right; left; reflexivity|reflexivity]].
    + split; [discriminate|contradiction].
    + split; [intros (s' & Q & M); injection Q as <-; exact M|]. intros M. eauto.
    + split; [intros (i & I0 & Q)|intros I0].
      * apply in_map_iff in I0 as (x & <- & I0). cbn [item_is] in Q. injection Q as ->. exact I0.
      * exists (ICell (VStr s)). split; [apply in_map_iff; eauto|reflexivity].
    + split; [intros (i & [<-|[<-|[]]] & Q); cbn [item_is] in Q; injection Q as Q; auto|].
      intros [-> | ->]; eexists; [split; [left; reflexivity|reflexivity]|split; [right; left; reflexivity|reflexivity]].
  - split; [trivial|]. intros _. assert (N : ~ has_col cols k) by (rewrite HC; auto).
    destruct H as (H1 & H2). split; [contradiction|]. split; [intros _ b Q; now apply (H1 b) in Q|]. split; [intros _ b Q; now apply (H1 b) in Q|].
    intros _ _ _ I1 I2. apply (has_col_value a _ T) in I1, I2. destruct H2; contradiction.
Qed.

Theorem matches_spec kw : (forall k r, In (k, r) kw -> ~ not_filter k r -> attr_askable a k r) ->
  exists b, matches_filters a kw = Ok b /\ (b = true <-> forall k r, In (k, r) kw -> ~ not_filter k r -> attr_answers a k r).
Proof.
  intros H. unfold matches_filters.
  assert (Q : forall k r, In (k, r) (filter is_query kw) <-> In (k, r) kw /\ ~ not_filter k r) by (intros k r; rewrite filter_In, is_query_spec; reflexivity).
  destruct (filter is_query kw) as [|e q'] eqn:F.
  { exists true. split; [reflexivity|]. split; [|reflexivity]. intros _ k r I N. destruct (proj2 (Q k r) (conj I N)). }
  set (q := e :: q') in *. clearbody q. clear F e q'.
  assert (S : existsb (fun e => is_seq (assoc (fst e) (d_vals (dump a)))) q = false).
  { destruct (existsb _ q) eqn:X; [|reflexivity]. apply existsb_exists in X as ((k & r) & I & X). apply Q in I as (I & N). specialize (H k r I N).
    cbn [fst] in X. rewrite (dump_value a k T) in X. unfold attr_askable in H. destruct (attr_value a k) as [[]|]; try discriminate. destruct r as [[]|[][]]; contradiction. }
  rewrite S. set (kws := map (fun e => (fst e, rarg_query (snd e))) q).
  assert (K : forall k v, In (k, v) kws -> exists r, v = rarg_query r /\ In (k, r) kw /\ ~ not_filter k r /\ attr_askable a k r).
  { intros k v I. apply in_map_iff in I as ((k' & r) & [= <- <-] & I). apply Q in I as (I & N). exists r. auto. }
  assert (P : forall k v, In (k, v) kws -> ~ has_col cols k -> plain_key k).
  { intros k v I N suf x y Hs E (b & B). destruct (K k v I) as (r & _ & _ & _ & Ak). destruct (ask_bare k r Ak N) as (U & _). destruct Hs as [-> | ->]; now apply (U b) in B. }
  destruct (filter_df cols [attr_row a] true kws) as [m|x] eqn:Fd.
  - destruct (filter_df_rows _ _ _ _ _ P Fd) as (Pr & -> & Hp). cbn [map bind]. exists (Pr (attr_row a)). split; [reflexivity|].
    rewrite (Hp (attr_row a) (or_introl eq_refl)). split.
    + intros M k r I N. apply (ask_meets k r (H k r I N)). apply M. apply in_map_iff. exists (k, r). split; [reflexivity|]. now apply Q.
    + intros M k v I. destruct (K k v I) as (r & -> & Ir & N & Ak). apply (ask_meets k r Ak). now apply M.
  - exfalso. destruct (filter_df_err _ _ _ _ _ P Fd) as (k & v & I & R). destruct (K k v I) as (r & -> & _ & _ & Ak). now apply (ask_fair k r x Ak) in R.
Qed.
End Ask.
