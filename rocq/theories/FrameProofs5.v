(** adjust_segments. *)
From Verif Require Import Base BaseFacts FrameModel FrameSpec FrameProofs FrameProofs2 FrameProofs3 FrameProofs4.
From Coq Require Import Strings.String Strings.Ascii Lia ZifyBool.
Local Open Scope Z_scope.
Local Open Scope string_scope.
Opaque str_suffix str_replace.

Lemma keep_rows_filter {A} (P : A -> bool) rows : keep_rows (map P rows) rows = filter P rows.
Proof.
  unfold keep_rows. induction rows as [|r rows IH]; cbn; auto.
  destruct (P r); cbn; now rewrite IH.
Qed.

Lemma assoc_set_same {A} k (v : A) l : assoc k (assoc_set k v l) = Some v.
Proof.
  induction l as [|[k' w] l IH]; cbn; [now rewrite String.eqb_refl|].
  destruct (String.eqb_spec k k'); cbn.
  - now rewrite String.eqb_refl.
  - destruct (String.eqb_spec k k'); congruence.
Qed.
Lemma assoc_set_other {A} k k' (v : A) l : k' <> k -> assoc k' (assoc_set k v l) = assoc k' l.
Proof.
  intros H. induction l as [|[q w] l IH]; cbn.
  - destruct (String.eqb_spec k' k); congruence.
  - destruct (String.eqb_spec k q) as [<-|]; cbn.
    + destruct (String.eqb_spec k' k); congruence.
    + now rewrite IH.
Qed.
Lemma get_set_same r k c : get_cell (set_cell r k c) k = c.
Proof. unfold get_cell, set_cell. cbn. now rewrite assoc_set_same. Qed.
Lemma get_set_other r k k' c : k' <> k -> get_cell (set_cell r k c) k' = get_cell r k'.
Proof. intros. unfold get_cell, set_cell. cbn. now rewrite assoc_set_other. Qed.

Lemma min_ne_max k k' : k ++ "_min" <> k' ++ "_max".
Proof. intros H. symmetry in H. now apply not_both in H. Qed.

Lemma clamp_row_cells k lo hi r c :
  get_cell (clamp_row k lo hi r) c =
  if String.eqb c (k ++ "_min") then
    match lo with Some a => if cell_lt (get_cell r c) a then a else get_cell r c | None => get_cell r c end
  else if String.eqb c (k ++ "_max") then
    match hi with Some b => if cell_lt b (get_cell r c) then b else get_cell r c | None => get_cell r c end
  else get_cell r c.
Proof.
  unfold clamp_row.
  set (small := match lo with None => false | Some a => cell_lt (get_cell r (k ++ "_min")) a end).
  set (large := match hi with None => false | Some b => cell_lt b (get_cell r (k ++ "_max")) end).
  assert (E : forall r' f, get_cell {| f_cells := f_cells r'; f_mod := f |} c = get_cell r' c) by reflexivity.
  rewrite E. clear E.
  destruct (String.eqb_spec c (k ++ "_min")) as [->|N1].
  - unfold small. destruct lo as [a|].
    + destruct (cell_lt (get_cell r (k ++ "_min")) a).
      * now rewrite get_set_same.
      * destruct large; auto. destruct hi; auto. rewrite get_set_other; auto using min_ne_max.
    + destruct large; auto. destruct hi; auto. rewrite get_set_other; auto using min_ne_max.
  - assert (G : get_cell (if small then match lo with Some a => set_cell
        (if large then match hi with Some b => set_cell r (k ++ "_max") b | None => r end else r) (k ++ "_min") a
        | None => if large then match hi with Some b => set_cell r (k ++ "_max") b | None => r end else r end
        else if large then match hi with Some b => set_cell r (k ++ "_max") b | None => r end else r) c =
       get_cell (if large then match hi with Some b => set_cell r (k ++ "_max") b | None => r end else r) c).
    { destruct small; auto. destruct lo; auto. now rewrite get_set_other. }
    rewrite G. clear G.
    destruct (String.eqb_spec c (k ++ "_max")) as [->|N2].
    + unfold large. destruct hi as [b|]; auto.
      destruct (cell_lt b (get_cell r (k ++ "_max"))); auto. now rewrite get_set_same.
    + destruct large; auto. destruct hi; auto. now rewrite get_set_other.
Qed.

Lemma cell_lt_ne a b : cell_lt a b = true -> a <> b.
Proof. destruct a, b; cbn; try discriminate. intros H E. injection E as ->. lia. Qed.

Lemma clamp_row_mod k lo hi r :
  f_mod (clamp_row k lo hi r) = true <->
  f_mod r = true \/ get_cell (clamp_row k lo hi r) (k ++ "_min") <> get_cell r (k ++ "_min")
                 \/ get_cell (clamp_row k lo hi r) (k ++ "_max") <> get_cell r (k ++ "_max").
Proof.
  rewrite !clamp_row_cells, String.eqb_refl.
  replace (String.eqb (k ++ "_max") (k ++ "_min")) with false
    by (symmetry; apply String.eqb_neq; intros H; now apply not_both in H).
  rewrite String.eqb_refl. unfold clamp_row. cbn [f_mod].
  rewrite !Bool.orb_true_iff.
  assert (L : match lo with None => false | Some a => cell_lt (get_cell r (k ++ "_min")) a end = true <->
          match lo with Some a => if cell_lt (get_cell r (k ++ "_min")) a then a else get_cell r (k ++ "_min") | None => get_cell r (k ++ "_min") end <> get_cell r (k ++ "_min")).
  { destruct lo as [a|]; [|split; congruence].
    destruct (cell_lt (get_cell r (k ++ "_min")) a) eqn:E; [|split; congruence].
    apply cell_lt_ne in E. split; congruence. }
  assert (L' : match hi with None => false | Some b => cell_lt b (get_cell r (k ++ "_max")) end = true <->
          match hi with Some b => if cell_lt b (get_cell r (k ++ "_max")) then b else get_cell r (k ++ "_max") | None => get_cell r (k ++ "_max") end <> get_cell r (k ++ "_max")).
  { destruct hi as [b|]; [|split; congruence].
    destruct (cell_lt b (get_cell r (k ++ "_max"))) eqn:E; [|split; congruence].
    apply cell_lt_ne in E. split; congruence. }
  rewrite L, L'. tauto.
Qed.

Lemma clamp_row_trim k a b lo hi r : order_range (item_bound a, item_bound b) = Ok (lo, hi) ->
  trimmed r (clamp_row k lo hi r) k a b.
Proof.
  intros Ho s e Hs He. unfold val in *.
  rewrite !clamp_row_cells, String.eqb_refl.
  replace (String.eqb (k ++ "_max") (k ++ "_min")) with false
    by (symmetry; apply String.eqb_neq; intros H; now apply not_both in H).
  rewrite String.eqb_refl, Hs, He.
  exists (match lo with Some (VInt x) => Z.max s x | _ => s end),
         (match hi with Some (VInt x) => Z.min e x | _ => e end).
  split.
  { destruct lo as [[x|x|]|]; cbn; auto. destruct (Z.ltb_spec s x); f_equal; lia. }
  split.
  { destruct hi as [[x|x|]|]; cbn; auto. destruct (Z.ltb_spec x e); f_equal; lia. }
  destruct a as [| |[za|?|]], b as [| |[zb|?|]]; cbn [item_bound order_range cmp_ok cell_lt andb] in Ho;
    try discriminate; try (destruct (Z.ltb_spec zb za)); injection Ho as <- <-; cbn [low_end high_end];
    (split;
     first [ left; split; [tauto|reflexivity]
           | right; eexists; split; [reflexivity|lia] ]).
Qed.

(** Names of the two columns of one range. *)
Definition touched (ks : list string) (c : string) : Prop :=
  exists k, In k ks /\ (c = k ++ "_min" \/ c = k ++ "_max").

Lemma clamp_all_spec ranges : forall rows out, NoDup (map fst ranges) -> clamp_all ranges rows = Ok out ->
  exists g, out = map g rows /\ forall r,
    (forall c, ~ touched (map fst ranges) c -> val (g r) c = val r c) /\
    (forall k a b, In (k, QColl [a; b]) ranges -> trimmed r (g r) k a b) /\
    (f_mod (g r) = true <-> f_mod r = true \/ exists c, val (g r) c <> val r c).
Proof.
  unfold val. induction ranges as [|[k v] ranges IH]; intros rows out ND E; cbn [clamp_all map fst] in *.
  - injection E as <-. exists (fun r => r). split; [now rewrite map_id|]. intros r. split; [auto|]. split; [intros ? ? ? []|].
    split; [auto|]. intros [?|[c ?]]; congruence.
  - destruct (sanitize_range v) as [r0|] eqn:Es; [|discriminate]. cbn [bind] in E.
    destruct (order_range r0) as [[lo hi]|] eqn:Eo; [|discriminate]. cbn [bind] in E.
    inversion ND as [|? ? Nk ND']; subst.
    destruct (IH _ _ ND' E) as (g & -> & Hg). clear IH E.
    exists (fun r => g (clamp_row k lo hi r)). split; [now rewrite map_map|].
    intros r. destruct (Hg (clamp_row k lo hi r)) as (G1 & G2 & G3). clear Hg.
    assert (Tk : forall c, c = k ++ "_min" \/ c = k ++ "_max" -> ~ touched (map fst ranges) c).
    { intros c Hc (k' & Hk' & Hc'). destruct Hc as [->| ->], Hc' as [Hc'|Hc'].
      - apply sapp_inv_tail in Hc'. subst. auto.
      - symmetry in Hc'. now apply not_both in Hc'.
      - now apply not_both in Hc'.
      - apply sapp_inv_tail in Hc'. subst. auto. }
    assert (Ck : forall c, c <> k ++ "_min" -> c <> k ++ "_max" -> get_cell (clamp_row k lo hi r) c = get_cell r c).
    { intros c H1 H2. rewrite clamp_row_cells, (proj2 (String.eqb_neq _ _) H1), (proj2 (String.eqb_neq _ _) H2). auto. }
    split; [|split].
    + intros c Hc. rewrite G1.
      * apply Ck; intros ->; apply Hc; exists k; cbn; auto.
      * intros (k' & ? & ?). apply Hc. exists k'. cbn. auto.
    + intros k' a b [H|H].
      * injection H as <- ->. cbn in Es. injection Es as <-.
        pose proof (clamp_row_trim k a b lo hi r Eo) as T. intros s e Hs He.
        destruct (T s e Hs He) as (s' & e' & T1 & T2 & T3). exists s', e'.
        unfold val in *. rewrite !G1 by auto. auto.
      * pose proof (G2 _ _ _ H) as T. intros s e Hs He. unfold val in *.
        assert (k' <> k) by (intros ->; apply Nk; apply (in_map fst) in H; auto).
        apply T; (rewrite Ck; [auto| |]); intros HE; first [apply sapp_inv_tail in HE; auto | now apply not_both in HE | symmetry in HE; now apply not_both in HE].
    + rewrite G3, clamp_row_mod. split.
      * intros [[H|[H|H]]|[c H]].
        -- auto.
        -- right. exists (k ++ "_min"). rewrite G1; auto.
        -- right. exists (k ++ "_max"). rewrite G1; auto.
        -- right. exists c. 
           destruct (string_dec c (k ++ "_min")) as [->|N1]; [rewrite G1 in H by auto; congruence|].
           destruct (string_dec c (k ++ "_max")) as [->|N2]; [rewrite G1 in H by auto; congruence|].
           rewrite Ck in H by auto. auto.
      * intros [H|[c H]]; [auto|].
        destruct (string_dec c (k ++ "_min")) as [->|N1]; [rewrite G1 in H by auto; auto|].
        destruct (string_dec c (k ++ "_max")) as [->|N2]; [rewrite G1 in H by auto; auto|].
        right. exists c. rewrite Ck by auto. auto.
Qed.

Lemma range_names_In cols kw k v : In (k, v) (range_names cols kw) <->
  In (k, v) kw /\ interval cols k /\ ~ has_col cols k.
Proof.
  unfold range_names. rewrite filter_In, Bool.andb_true_iff. cbn [fst].
  rewrite has_interval_spec, Bool.negb_true_iff, mem_not. tauto.
Qed.
Lemma NoDup_map_filter {A B} (f : A -> B) p l : NoDup (map f l) -> NoDup (map f (filter p l)).
Proof.
  induction l as [|x l IH]; cbn; auto. intros H. inversion H; subst.
  destruct (p x); cbn; auto. constructor; auto. intros Hin. apply H2.
  apply in_map_iff in Hin. destruct Hin as (y & <- & Hy). apply filter_In in Hy. apply in_map. tauto.
Qed.

Lemma adjust_segments_spec cols rows ign kw out :
  NoDup (map fst kw) ->
  (forall k v, In (k, v) kw -> ~ has_col cols k -> plain_key k) ->
  adjust_segments cols rows ign kw = Ok out ->
  exists P g, out = map g (filter P rows) /\
    (forall r, In r rows -> (P r = true <-> forall k v, In (k, v) kw -> meets cols r k v)) /\
    forall r,
      (forall c, (forall k, In k (map fst kw) -> ~ has_col cols k -> c <> k ++ "_min" /\ c <> k ++ "_max") ->
         val (g r) c = val r c) /\
      (forall k a b, In (k, QColl [a; b]) kw -> ~ has_col cols k -> interval cols k -> trimmed r (g r) k a b) /\
      (f_mod (g r) = true <-> f_mod r = true \/ exists c, val (g r) c <> val r c).
Proof.
  intros ND Hplain H. unfold adjust_segments in H.
  destruct (filter_df cols rows ign kw) as [m|] eqn:E; [|discriminate]. cbn [bind] in H.
  destruct (filter_df_rows _ _ _ _ _ Hplain E) as (P & -> & HP).
  destruct (forallb _ _) in H; [|discriminate].
  rewrite keep_rows_filter in H.
  apply clamp_all_spec in H; [|apply NoDup_map_filter; auto].
  destruct H as (g & -> & Hg). exists P, g. split; [auto|]. split; [auto|].
  intros r. destruct (Hg r) as (G1 & G2 & G3). split; [|split; [|auto]].
  - intros c Hc. apply G1. intros (k & Hk & Ht). apply in_map_iff in Hk. destruct Hk as ([k' v] & <- & Hk).
    apply range_names_In in Hk. destruct Hk as (Hk & Hi & Hn). cbn in Ht.
    destruct (Hc k'); auto. apply (in_map fst) in Hk. auto. tauto.
  - intros k a b Hin Hk Hi. apply G2. apply range_names_In. auto.
Qed.

(** When trimming fails. *)
Lemma clamp_all_ok ranges : forall rows,
  (forall k v, In (k, v) ranges -> exists r r', sanitize_range v = Ok r /\ order_range r = Ok r') ->
  exists out, clamp_all ranges rows = Ok out.
Proof.
  induction ranges as [|[k v] ranges IH]; intros rows H; cbn; [eauto|].
  destruct (H k v (or_introl eq_refl)) as (r & [lo hi] & E1 & E2). rewrite E1. cbn. rewrite E2. cbn.
  apply IH. intros. eapply H. right. eauto.
Qed.
Lemma clamp_all_err ranges : forall rows e, clamp_all ranges rows = Err e ->
  exists k v, In (k, v) ranges /\ (sanitize_range v = Err e \/ exists r, sanitize_range v = Ok r /\ order_range r = Err e).
Proof.
  induction ranges as [|[k v] ranges IH]; intros rows e H; cbn in H; [discriminate|].
  destruct (sanitize_range v) as [r|e'] eqn:E1; cbn in H.
  - destruct (order_range r) as [[lo hi]|e'] eqn:E2; cbn in H.
    + destruct (IH _ _ H) as (k' & v' & ? & ?). exists k', v'. split; [now right|auto].
    + exists k, v. split; [now left|]. right. exists r. split; congruence.
  - exists k, v. split; [now left|]. left. congruence.
Qed.

Lemma adjust_segments_err cols rows ign kw e :
  (forall k v, In (k, v) kw -> ~ has_col cols k -> plain_key k) ->
  adjust_segments cols rows ign kw = Err e ->
  (exists k v, In (k, v) kw /\ Refused cols rows ign k v e) \/
  (e = ParameterError /\ exists k v, In (k, v) kw /\ interval cols k /\ ~ has_col cols k /\
     (~ has_col cols (k ++ "_step") \/ (v <> QNone /\ forall a b, v <> QColl [a; b]))).
Proof.
  intros Hplain H. unfold adjust_segments in H.
  destruct (filter_df cols rows ign kw) as [m|e'] eqn:E; cbn [bind] in H.
  2:{ left. injection H as <-. eapply filter_df_err; eauto. }
  right. pose proof (filter_df_ok _ _ _ _ _ Hplain E) as Hok.
  destruct (forallb _ _) eqn:F in H.
  - apply clamp_all_err in H. destruct H as (k & v & Hin & Hc). apply range_names_In in Hin.
    destruct Hin as (Hin & Hi & Hk).
    destruct Hc as [Hc|(r & Hc & Ho)].
    + assert (e = ParameterError /\ v <> QNone /\ forall a b, v <> QColl [a; b]) as (? & ? & ?).
      { destruct v as [| |c|[|a [|b [|x l]]]]; cbn in Hc; try discriminate; repeat split; congruence. }
      split; [auto|]. exists k, v. tauto.
    + exfalso. destruct v as [| |c|[|a [|b [|x l]]]]; cbn in Hc; try discriminate;
        injection Hc as <-; try discriminate.
      assert (Hs : ~ suffixed k).
      { intros Hs. eapply (Hok k); eauto. now apply R_suffix_coll. }
      eapply (Hok k); eauto. apply R_string_range; auto. intros (Na & Nb & _).
      destruct a, b; cbn in Ho; try discriminate.
      rewrite (proj2 (cmp_ok_spec c)), (proj2 (cmp_ok_spec c0)) in Ho by auto. discriminate.
  - injection H as <-. split; [auto|].
    assert (exists p, In p (range_names cols kw) /\ mem (append (fst p) "_step") cols = false) as ([k v] & Hin & Hm).
    { clear -F. induction (range_names cols kw) as [|p l IH]; cbn in F; [discriminate|].
      destruct (mem (fst p ++ "_step") cols) eqn:G; cbn in F.
      - destruct (IH F) as (q & ? & ?). exists q. split; [now right|auto].
      - exists p. split; [now left|auto]. }
    apply range_names_In in Hin. exists k, v. apply mem_not in Hm. cbn in Hm. intuition.
Qed.

Lemma adjust_segments_ok cols rows ign kw out :
  adjust_segments cols rows ign kw = Ok out ->
  (exists m, filter_df cols rows ign kw = Ok m) /\
  forall k v, In (k, v) kw -> interval cols k -> ~ has_col cols k ->
    has_col cols (k ++ "_step") /\ (v = QNone \/ v = QDots \/ exists a b, v = QColl [a; b]).
Proof.
  unfold adjust_segments. destruct (filter_df cols rows ign kw) as [m|] eqn:E; [|discriminate]. cbn [bind].
  destruct (forallb _ _) eqn:F; [|discriminate]. intros H. split; [eauto|].
  intros k v Hin Hi Hk. rewrite forallb_forall in F.
  assert (Hr : In (k, v) (range_names cols kw)) by (apply range_names_In; auto).
  split; [apply mem_In; apply (F _ Hr)|].
  assert (S : exists r, sanitize_range v = Ok r).
  { revert H Hr. generalize (keep_rows m rows) as rs. generalize (range_names cols kw) as l.
    induction l as [|[k' v'] l IH]; intros rs H Hr; [destruct Hr|]. cbn in H.
    destruct (sanitize_range v') eqn:Sv; cbn in H; [|discriminate].
    destruct Hr as [Hr|Hr]; [injection Hr as <- <-; eauto|].
    destruct (order_range a) as [[lo hi]|]; cbn in H; [|discriminate]. eauto. }
  destruct S as [r S]. destruct v as [| |c|[|a [|b [|x l]]]]; cbn in S; try discriminate; eauto.
Qed.
