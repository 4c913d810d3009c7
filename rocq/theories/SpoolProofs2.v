(** Selecting keeps contents, instructions and sources in step. *)
From Verif Require Import Base BaseFacts CoordModel FrameModel ChunkModel FrameSpec FrameProofs FrameProofs2
  FrameProofs3 FrameProofs5 CmProofs SpoolModel SpoolSpec SpoolProofs.
From Coq Require Import Strings.String Lia Sorting.Permutation.
Local Open Scope Z_scope.
Local Open Scope list_scope.

(** The trimming of one row. *)
Fixpoint clampf (ranges : kwargs) (r : frow) : frow :=
  match ranges with
  | [] => r
  | (k, v) :: t =>
      clampf t match (do x <- sanitize_range v; order_range x) with
               | Ok (lo, hi) => clamp_row k lo hi r
               | Err _ => r
               end
  end.

Lemma clamp_all_map ranges : forall rows out, clamp_all ranges rows = Ok out ->
  out = map (clampf ranges) rows /\ forall rows', clamp_all ranges rows' = Ok (map (clampf ranges) rows').
Proof.
  induction ranges as [|[k v] t IH]; intros rows out H; cbn [clamp_all clampf] in *.
  - injection H as <-. split; [now rewrite map_id|]. intros. now rewrite map_id.
  - destruct (sanitize_range v) as [x|]; [|discriminate]. cbn [bind] in *.
    destruct (order_range x) as [[lo hi]|]; [|discriminate]. cbn [bind] in *.
    apply IH in H as [-> H]. split; [now rewrite map_map|].
    intros rows'. now rewrite H, map_map.
Qed.

Lemma clampf_spec ranges r : NoDup (map fst ranges) -> (exists out, clamp_all ranges [r] = Ok out) ->
  (forall c, ~ touched (map fst ranges) c -> val (clampf ranges r) c = val r c) /\
  (forall k a b, In (k, QColl [a; b]) ranges -> trimmed r (clampf ranges r) k a b) /\
  (f_mod (clampf ranges r) = true <-> f_mod r = true \/ exists c, val (clampf ranges r) c <> val r c).
Proof.
  intros N (out & H). pose proof (clamp_all_map _ _ _ H) as [-> _].
  apply clamp_all_spec in H as (g & E & Hg); auto. cbn [map] in E. injection E as E.
  rewrite E. apply Hg.
Qed.

Lemma clampf_agree (Q : string -> Prop) ranges :
  (forall k, In k (map fst ranges) -> Q (append k "_min") /\ Q (append k "_max")) ->
  forall r r', (forall c, Q c -> val r c = val r' c) -> f_mod r = f_mod r' ->
  (forall c, Q c -> val (clampf ranges r) c = val (clampf ranges r') c) /\
  f_mod (clampf ranges r) = f_mod (clampf ranges r').
Proof.
  induction ranges as [|[k v] t IH]; intros HQ r r' Hc Hm; cbn [clampf]; auto.
  destruct (HQ k) as [Q1 Q2]; [left; auto|].
  apply IH; [intros; apply HQ; right; auto| |].
  - intros c Qc. destruct (do x <- sanitize_range v; order_range x) as [[lo hi]|]; auto.
    unfold val in *. rewrite !clamp_row_cells, Hc by auto. reflexivity.
  - destruct (do x <- sanitize_range v; order_range x) as [[lo hi]|]; auto.
    unfold clamp_row. cbn [f_mod]. unfold val in Hc. now rewrite Hm, !Hc by auto.
Qed.

Lemma clampf_untrimmed ranges k : (forall a b, ~ In (k, QColl [a; b]) ranges) ->
  (exists out, clamp_all ranges [] = Ok out) ->
  forall r, val (clampf ranges r) (append k "_min") = val r (append k "_min") /\
    val (clampf ranges r) (append k "_max") = val r (append k "_max").
Proof.
  intros Hn (out & H). apply clamp_all_map in H as [_ H]. specialize (H []). cbn [map] in H.
  induction ranges as [|[q v] t IH]; intros r; cbn [clampf clamp_all] in *; auto.
  destruct (sanitize_range v) as [x|] eqn:S; [|discriminate]. cbn [bind] in *.
  destruct (order_range x) as [[lo hi]|] eqn:O; [|discriminate]. cbn [bind map] in *.
  destruct (IH (fun a b I => Hn a b (or_intror I)) H (clamp_row q lo hi r)) as [-> ->].
  unfold val. rewrite !clamp_row_cells.
  destruct (String.eqb_spec (append k "_min") (append q "_min")) as [E|E1].
  - apply sapp_inv_tail in E. subst q.
    assert (lo = None /\ hi = None) as [-> ->].
    { destruct v as [| | |[|a [|b [|c l]]]]; cbn in S; try discriminate; try (injection S as <-; cbn in O; now injection O as <- <-).
      exfalso. apply (Hn a b). left; auto. }
    split; [reflexivity|]. destruct (String.eqb _ (append k "_min")); auto. destruct (String.eqb _ _); auto.
  - destruct (String.eqb_spec (append k "_min") (append q "_max")) as [E|E2]; [exfalso; symmetry in E; now apply not_both in E|].
    split; auto.
    destruct (String.eqb_spec (append k "_max") (append q "_min")) as [E|E3]; [now apply not_both in E|].
    destruct (String.eqb_spec (append k "_max") (append q "_max")) as [E|E4]; auto.
    apply sapp_inv_tail in E. subst. easy.
Qed.

(** ** Rows of a query *)
Section Tables.
Context (cols icols : list string) (Ht : tables cols icols).

Lemma interval_sub q : interval icols q -> interval cols q.
Proof. intros [A B]. split; now apply (t_sub _ _ Ht). Qed.

Lemma range_names_same kw : range_names cols kw = range_names icols kw.
Proof.
  unfold range_names. induction kw as [|[q v] t IH]; cbn [filter fst]; auto. rewrite IH.
  assert (has_interval cols q && negb (mem q cols) = has_interval icols q && negb (mem q icols)) as ->; auto.
  apply Bool.eq_iff_eq_true. rewrite !Bool.andb_true_iff, !has_interval_spec, !Bool.negb_true_iff, !mem_not.
  split; intros [A B].
  - destruct (t_interval _ _ Ht q A) as [C D]. split; auto. intros X. apply D. now apply (t_sub _ _ Ht).
  - apply interval_sub in A. split; auto. now apply (t_interval _ _ Ht).
Qed.

Lemma unsuffixed_plain q : ~ suffixed q -> plain_key q.
Proof. intros N suf a b [ -> | -> ] _ [base E]; exfalso; apply N; exists base; auto. Qed.

Lemma clear_plain kw cs : (forall c, In c icols -> In c cs) -> clear_query cols icols kw ->
  forall q v, In (q, v) kw -> ~ has_col cs q -> plain_key q.
Proof.
  intros Hs [_ H] q v Hin Hn. apply unsuffixed_plain. apply (in_map fst) in Hin. cbn in Hin.
  destruct (H q Hin) as [X|X]; auto. exfalso. apply Hn. now apply Hs.
Qed.

Lemma meets_same row row' q v : (forall c, val row c = val row' c) ->
  meets cols row q v -> meets cols row' q v.
Proof. intros E. unfold meets. rewrite !E. intros (A & B & C & D). repeat split; auto; intros; rewrite <- E; eauto. Qed.

Lemma meets_irow kw row irow : clear_query cols icols kw ->
  (forall c, In c icols -> val irow c = val row c) ->
  (forall q v, In (q, v) kw -> meets cols row q v) ->
  forall q v, In (q, v) kw -> meets icols irow q v.
Proof.
  intros [_ Hk] E H q v Hin. destruct (H q v Hin) as (A & B & C & D).
  apply (in_map fst) in Hin. cbn in Hin. specialize (Hk q Hin).
  split; [|split; [|split]].
  - intros X. rewrite E by auto. apply A. now apply (t_sub _ _ Ht).
  - intros X base -> . destruct Hk as [Hk|Hk]; [now destruct X|]. exfalso. apply Hk. exists base; auto.
  - intros X base -> . destruct Hk as [Hk|Hk]; [now destruct X|]. exfalso. apply Hk. exists base; auto.
  - intros X S1 S2 I1 I2 a b ->. rewrite !E by auto.
    destruct (t_interval _ _ Ht q (interval_sub q (conj I1 I2))) as [_ N].
    apply D; auto; now apply (t_sub _ _ Ht).
Qed.

(** The shape of a successful trim on labelled rows. *)
Lemma adjust_shape {A} (cs : list string) (rows : list A) (getr : A -> frow) kw out :
  (forall q v, In (q, v) kw -> ~ has_col cs q -> plain_key q) ->
  filter_df cs (map getr rows) true kw = Ok (fst out) ->
  adjust_segments cs (map getr rows) true kw = Ok (snd out) ->
  exists P, fst out = map P (map getr rows) /\
    (forall r, In r rows -> (P (getr r) = true <-> forall q v, In (q, v) kw -> meets cs (getr r) q v)) /\
    snd out = map (fun r => clampf (range_names cs kw) (getr r)) (filter (fun r => P (getr r)) rows) /\
    keep_rows (fst out) rows = filter (fun r => P (getr r)) rows /\
    (forall rs, exists o, clamp_all (range_names cs kw) rs = Ok o).
Proof.
  intros Hp F H. destruct (filter_df_rows _ _ _ _ _ Hp F) as (P & E & HP).
  exists P. split; auto. split; [intros r Hr; apply HP; now apply in_map|].
  unfold adjust_segments in H. rewrite F in H. cbn [bind] in H.
  destruct (forallb _ _) in H; [|discriminate].
  rewrite E, keep_rows_filter in H. apply clamp_all_map in H as [-> G].
  assert (filter P (map getr rows) = map getr (filter (fun r => P (getr r)) rows)) as X.
  { clear. induction rows as [|r rows IH]; cbn; auto. destruct (P (getr r)); cbn; now rewrite IH. }
  split; [now rewrite X, map_map|]. split; [|eauto].
  rewrite E, map_map. apply keep_rows_filter.
Qed.
End Tables.

Lemma combine_map {A B C} (f : A -> B) (g : A -> C) l : combine (map f l) (map g l) = map (fun x => (f x, g x)) l.
Proof. induction l; cbn; congruence. Qed.
Lemma combine_map_r {A C} (g : A -> C) l : combine l (map g l) = map (fun x => (x, g x)) l.
Proof. induction l; cbn; congruence. Qed.

Lemma adjust_labelled_shape cs rows kw out :
  (forall q v, In (q, v) kw -> ~ has_col cs q -> plain_key q) ->
  adjust_labelled cs rows kw = Ok out ->
  exists P, (forall x, In x rows -> (P (snd x) = true <-> forall q v, In (q, v) kw -> meets cs (snd x) q v)) /\
    out = map (fun x => (fst x, clampf (range_names cs kw) (snd x))) (filter (fun x => P (snd x)) rows) /\
    (forall rs, exists o, clamp_all (range_names cs kw) rs = Ok o).
Proof.
  intros Hp H. unfold adjust_labelled in H.
  destruct (filter_df _ _ _ _) as [m|] eqn:F; [|discriminate]. cbn [bind] in H.
  destruct (adjust_segments _ _ _ _) as [o|] eqn:A; [|discriminate]. cbn [bind] in H. injection H as <-.
  destruct (adjust_shape cs rows snd kw (m, o) Hp F A) as (P & _ & HP & E & K & G). cbn [fst snd] in *.
  exists P. split; auto. split; auto. now rewrite K, E, combine_map.
Qed.

Lemma adjust_irows_shape cs rows kw out :
  (forall q v, In (q, v) kw -> ~ has_col cs q -> plain_key q) ->
  adjust_irows cs rows kw = Ok out ->
  exists P, (forall x, In x rows -> (P (n_row x) = true <-> forall q v, In (q, v) kw -> meets cs (n_row x) q v)) /\
    out = map (fun x => mkIrow (n_src x) (n_cur x) (clampf (range_names cs kw) (n_row x)))
              (filter (fun x => P (n_row x)) rows).
Proof.
  intros Hp H. unfold adjust_irows in H.
  destruct (filter_df _ _ _ _) as [m|] eqn:F; [|discriminate]. cbn [bind] in H.
  destruct (adjust_segments _ _ _ _) as [o|] eqn:A; [|discriminate]. cbn [bind] in H. injection H as <-.
  destruct (adjust_shape cs rows n_row kw (m, o) Hp F A) as (P & _ & HP & E & K & G). cbn [fst snd] in *.
  exists P. split; auto. rewrite K, E, combine_map_r, map_map. reflexivity.
Qed.
