(** filter_df row by row. *)
From Verif Require Import Base BaseFacts FrameModel FrameSpec FrameProofs.
From Coq Require Import Strings.String Strings.Ascii Lia ZifyBool.
Local Open Scope Z_scope.
Local Open Scope string_scope.

Lemma mem_In k cols : mem k cols = true <-> has_col cols k.
Proof.
  unfold mem, has_col. rewrite existsb_exists. split.
  - intros [x [H E]]. apply String.eqb_eq in E. now subst.
  - intros H. exists k. split; auto. apply String.eqb_refl.
Qed.
Lemma mem_not k cols : mem k cols = false <-> ~ has_col cols k.
Proof. rewrite <- mem_In. destruct (mem k cols); split; congruence. Qed.
Lemma has_interval_spec cols k : has_interval cols k = true <-> interval cols k.
Proof. unfold has_interval, interval. rewrite Bool.andb_true_iff, !mem_In. reflexivity. Qed.
Lemma has_interval_not cols k : has_interval cols k = false <-> ~ interval cols k.
Proof. rewrite <- has_interval_spec. destruct (has_interval cols k); split; congruence. Qed.
Lemma cmp_ok_spec c : cmp_ok c = true <-> number_or_null c.
Proof. unfold number_or_null. destruct c; cbn; split; intros; try congruence. exfalso. eapply H; reflexivity. Qed.
Lemma has_char_spec c s : has_char c s = true <-> contains_char c s.
Proof.
  unfold contains_char. induction s as [|d s IH]; cbn.
  - split; [discriminate|]. intros [a [b E]]. destruct a; discriminate.
  - rewrite Bool.orb_true_iff, Ascii.eqb_eq, IH. split.
    + intros [->|[a [b ->]]]; [exists "", s|exists (String d a), b]; reflexivity.
    + intros [a [b E]]. destruct a as [|x a]; cbn in E; injection E as -> E; eauto.
Qed.
Lemma suffixed_spec k : suffixed k <-> str_suffix "_max" k = true \/ str_suffix "_min" k = true.
Proof.
  unfold suffixed. rewrite !str_suffix_spec. split.
  - intros [base [H|H]]; [left|right]; eauto.
  - intros [[t H]|[t H]]; exists t; auto.
Qed.
Lemma not_both base base' : base ++ "_max" = base' ++ "_min" -> False.
Proof.
  intros H. assert (L : String.length base = String.length base').
  { apply (f_equal String.length) in H. rewrite !slen_app in H. cbn in H. lia. }
  destruct (sapp_inv_len _ _ _ _ H L). discriminate.
Qed.

(** ** Conjunction of row predicates *)
Lemma mask_and_map {A} (f g : A -> bool) rows :
  mask_and (map f rows) (map g rows) = map (fun r => f r && g r) rows.
Proof. unfold mask_and. induction rows; cbn; congruence. Qed.

Lemma all_masks_spec {A} (f : A -> result mask) (P : A -> frow -> bool) rows l : forall g m,
  (forall x n, In x l -> f x = Ok n -> n = map (P x) rows) ->
  all_masks f l (map g rows) = Ok m ->
  m = map (fun r => g r && forallb (fun x => P x r) l) rows.
Proof.
  induction l as [|x l IH]; intros g m H E; cbn in E.
  - injection E as <-. apply map_ext. intros. cbn. now rewrite Bool.andb_true_r.
  - destruct (f x) as [n|] eqn:F; [|discriminate]. cbn in E.
    rewrite (H x n (or_introl eq_refl) F), mask_and_map in E.
    apply IH in E; [|intros; apply H; auto; now right].
    rewrite E. apply map_ext. intros. cbn. now rewrite Bool.andb_assoc.
Qed.
Lemma all_masks_err {A} (f : A -> result mask) l : forall m e,
  all_masks f l m = Err e -> exists x, In x l /\ f x = Err e.
Proof.
  induction l as [|x l IH]; intros m e E; cbn in E; [discriminate|].
  destruct (f x) as [n|e'] eqn:F; cbn in E.
  - destruct (IH _ _ E) as [y [Hy Ey]]. exists y. split; auto. now right.
  - exists x. split; [now left|congruence].
Qed.
Lemma all_masks_ok {A} (f : A -> result mask) l : forall m m',
  all_masks f l m = Ok m' -> forall x, In x l -> exists n, f x = Ok n.
Proof.
  induction l as [|x l IH]; intros m m' E y Hy; [destruct Hy|]. cbn in E.
  destruct (f x) as [n|e'] eqn:F; cbn in E; [|discriminate].
  destruct Hy as [<-|Hy]; eauto.
Qed.

Definition eqP (p : string * qval) (r : frow) : bool :=
  match snd p with
  | QVal (VStr p') => match get_cell r (fst p) with VStr s => glob p' s | _ => false end
  | QVal c => cell_eqb (get_cell r (fst p)) c
  | _ => false
  end.
Definition coP (p : string * qval) (r : frow) : bool :=
  isin match snd p with QColl l => l | _ => [] end (get_cell r (fst p)).
Definition rgP (e : string * bool * option cell) (r : frow) : bool :=
  let '(k, is_max, bound) := e in
  match bound with
  | None => true
  | Some b => if is_max : bool then cell_le (get_cell r k) b else cell_le b (get_cell r k)
  end.
Definition muP (e : string * (option cell * option cell)) (r : frow) : bool :=
  let '(k, (lo, hi)) := e in
  let mn := get_cell r (k ++ "_min") in
  let mx := get_cell r (k ++ "_max") in
  match lo with None => true | Some a => negb (cell_lt mx a) end
  && match hi with None => true | Some b => negb (cell_lt b mn) end
  && negb (is_null mn || is_null mx).

Lemma equality_mask_spec rows k v n : equality_mask rows k v = Ok n -> n = map (eqP (k, v)) rows.
Proof.
  unfold equality_mask, column, eqP. cbn [fst snd]. destruct v as [| |[z|p|]|l]; intros H.
  1,2,3,5: injection H as <-; now rewrite map_map.
  - destruct (_ || _)%bool; [discriminate|]. injection H as <-. now rewrite map_map.
  - discriminate.
Qed.
Lemma contains_mask_spec cols rows k v n :
  contains_mask cols rows k match v with QColl l => l | _ => [] end = Ok n -> n = map (coP (k, v)) rows.
Proof.
  unfold contains_mask, column, coP. cbn [fst snd]. destruct (misdirected _ _ _); intros H; [discriminate|].
  injection H as <-. now rewrite map_map.
Qed.
Lemma range_mask_spec cols rows e n : range_mask cols rows e = Ok n -> n = map (rgP e) rows.
Proof.
  destruct e as [[k mx] b]. unfold range_mask, rgP, column. destruct (mem k cols); [|discriminate].
  destruct b as [b|]; intros H.
  - destruct (_ && _)%bool; [|discriminate]. injection H as <-. now rewrite map_map.
  - injection H as <-. reflexivity.
Qed.
Lemma combine_map2 {A B C} (f : A -> B) (g : A -> C) l :
  combine (map f l) (map g l) = map (fun x => (f x, g x)) l.
Proof. induction l; cbn; congruence. Qed.
Lemma multi_mask_spec rows e n : multi_mask rows e = Ok n -> n = map (muP e) rows.
Proof.
  destruct e as [k [lo hi]]. unfold multi_mask, muP, column.
  match goal with |- (if ?c then _ else _) = _ -> _ => destruct c end; [|discriminate].
  intros H. rewrite combine_map2, map_map in H.
  injection H as <-. reflexivity.
Qed.

(** ** Splitting *)
Definition bound_q (v : qval) : option cell := match v with QVal c => Some c | _ => None end.
Lemma opt_bound_ok v b : opt_bound v = Ok b -> b = bound_q v /\ forall l, v <> QColl l.
Proof. destruct v; cbn; intros H; try discriminate; injection H as <-; split; congruence. Qed.

Lemma min_max_query_spec cols kw : forall mm rest, min_max_query cols kw = Ok (mm, rest) ->
  (forall k v, In (k, v) rest <-> In (k, v) kw /\ (has_col cols k \/ ~ suffixed k)) /\
  (forall b is_max bd, In (b, is_max, bd) mm <-> exists k v, In (k, v) kw /\ ~ has_col cols k /\
      bd = bound_q v /\
      ((is_max = true /\ str_suffix "_max" k = true /\ b = str_replace "_max" "" k) \/
       (is_max = false /\ str_suffix "_max" k = false /\ str_suffix "_min" k = true /\ b = str_replace "_min" "" k))) /\
  (forall k l, In (k, QColl l) kw -> has_col cols k \/ ~ suffixed k).
Proof.
  induction kw as [|[k v] kw IH]; intros mm rest E; cbn [min_max_query] in E.
  - injection E as <- <-. split; [|split]; cbn.
    + intros; split; [tauto|]. intros [[] _].
    + intros; split; [tauto|]. intros [? [? [[] _]]].
    + tauto.
  - destruct (min_max_query cols kw) as [[mm' rest']|] eqn:F; [|discriminate].
    destruct (IH mm' rest' eq_refl) as [I1 [I2 I3]]. clear IH F. cbn [bind] in E.
    destruct (mem k cols) eqn:M.
    + rewrite !Bool.andb_false_r in E. injection E as <- <-. apply mem_In in M. split; [|split].
      * intros k' v'. cbn. rewrite I1. split.
        -- intros [H|H]; [injection H as <- <-; auto|tauto].
        -- intros [[H|H] H2]; tauto.
      * intros b im bd. rewrite I2. split.
        -- intros (k' & v' & H & R). exists k', v'. split; [now right|auto].
        -- intros (k' & v' & [H|H] & R); [|exists k', v'; auto].
           injection H as <- <-. exfalso. tauto.
      * intros k' l [H|H]; [injection H as <- _; auto|eauto].
    + apply mem_not in M. cbn [negb] in E. rewrite !Bool.andb_true_r in E.
      destruct (str_suffix "_max" k) eqn:S1; [|destruct (str_suffix "_min" k) eqn:S2].
      * destruct (opt_bound v) as [b|] eqn:B; [|discriminate]. cbn [bind] in E. injection E as <- <-.
        apply opt_bound_ok in B. destruct B as [-> Nc].
        assert (Sk : suffixed k) by (apply suffixed_spec; auto). split; [|split].
        -- intros k' v'. rewrite I1. split; [intros [? ?]; split; auto; now right|].
           intros [[H|H] H2]; [|tauto]. injection H as <- <-. tauto.
        -- intros b im bd. cbn [In]. rewrite I2. split.
           ++ intros [H|(k' & v' & H & R)].
              ** injection H as <- <- <-. exists k, v. split; [now left|]. split; [auto|]. split; [auto|]. left; auto.
              ** exists k', v'. split; [now right|auto].
           ++ intros (k' & v' & [H|H] & R); [|right; exists k', v'; auto].
              injection H as <- <-. left. destruct R as (_ & -> & [(-> & _ & ->)|(_ & R & _)]); [reflexivity|congruence].
        -- intros k' l [H|H]; [injection H as <- H; exfalso; eapply Nc; eauto|eauto].
      * destruct (opt_bound v) as [b|] eqn:B; [|discriminate]. cbn [bind] in E. injection E as <- <-.
        apply opt_bound_ok in B. destruct B as [-> Nc].
        assert (Sk : suffixed k) by (apply suffixed_spec; auto). split; [|split].
        -- intros k' v'. rewrite I1. split; [intros [? ?]; split; auto; now right|].
           intros [[H|H] H2]; [|tauto]. injection H as <- <-. tauto.
        -- intros b im bd. cbn [In]. rewrite I2. split.
           ++ intros [H|(k' & v' & H & R)].
              ** injection H as <- <- <-. exists k, v. split; [now left|]. split; [auto|]. split; [auto|]. right; auto.
              ** exists k', v'. split; [now right|auto].
           ++ intros (k' & v' & [H|H] & R); [|right; exists k', v'; auto].
              injection H as <- <-. left. destruct R as (_ & -> & [(_ & R & _)|(-> & _ & _ & ->)]); [congruence|reflexivity].
        -- intros k' l [H|H]; [injection H as <- H; exfalso; eapply Nc; eauto|eauto].
      * injection E as <- <-.
        assert (Sk : ~ suffixed k) by (rewrite suffixed_spec, S1, S2; intuition congruence). split; [|split].
        -- intros k' v'. cbn. rewrite I1. split.
           ++ intros [H|H]; [injection H as <- <-; auto|tauto].
           ++ intros [[H|H] H2]; tauto.
        -- intros b im bd. rewrite I2. split.
           ++ intros (k' & v' & H & R). exists k', v'. split; [now right|auto].
           ++ intros (k' & v' & [H|H] & R); [|exists k', v'; auto].
              injection H as <- <-. exfalso. destruct R as (_ & _ & [(_ & R & _)|(_ & _ & R & _)]); congruence.
        -- intros k' l [H|H]; [injection H as <- _; auto|eauto].
Qed.

Lemma min_max_query_err cols kw e : min_max_query cols kw = Err e ->
  e = Unmodelled /\ exists k l, In (k, QColl l) kw /\ ~ has_col cols k /\ suffixed k.
Proof.
  induction kw as [|[k v] kw IH]; cbn [min_max_query]; [discriminate|].
  destruct (min_max_query cols kw) as [[mm rest]|e'] eqn:F; cbn [bind].
  - destruct (mem k cols) eqn:M; [rewrite !Bool.andb_false_r; discriminate|].
    apply mem_not in M. cbn [negb]. rewrite !Bool.andb_true_r.
    destruct (str_suffix "_max" k) eqn:S1; [|destruct (str_suffix "_min" k) eqn:S2]; [| |discriminate];
      (destruct v; cbn; intros H; try discriminate; split; [congruence|];
       exists k, l; split; [now left|]; split; [auto|]; apply suffixed_spec; auto).
  - intros H. destruct IH as [? (k' & l & ? & ?)]; [congruence|]. split; [auto|].
    exists k', l. split; [now right|auto].
Qed.

Definition is_bad (cols : list string) (k : string) (v : qval) : Prop :=
  v <> QNone /\ (interval cols k -> forall a b, v <> QColl [a; b]).
Lemma split_query_spec cols kw : forall out rng bad, split_query cols kw = Ok (out, rng, bad) ->
  (forall k v, In (k, v) out <-> In (k, v) kw /\ has_col cols k) /\
  (forall k lo hi, In (k, (lo, hi)) rng <-> exists a b, In (k, QColl [a; b]) kw /\ ~ has_col cols k /\
     interval cols k /\ lo = item_bound a /\ hi = item_bound b) /\
  (forall k, In k bad <-> exists v, In (k, v) kw /\ ~ has_col cols k /\ is_bad cols k v) /\
  (forall k v, In (k, v) kw -> ~ has_col cols k -> interval cols k ->
     v <> QDots /\ (forall n, v <> QVal (VInt n)) /\ v <> QVal VNull /\
     forall s, v = QVal (VStr s) -> String.length s <> 2%nat).
Proof.
  induction kw as [|[k v] kw IH]; intros out rng bad E; cbn [split_query] in E.
  - injection E as <- <- <-. cbn [In]. split; [|split; [|split]].
    + intros; tauto.
    + intros; split; [tauto|]. intros (? & ? & [] & _).
    + intros; split; [tauto|]. intros (? & [] & _).
    + intros ? ? [].
  - destruct (split_query cols kw) as [[[out' rng'] bad']|] eqn:F; [|discriminate].
    destruct (IH _ _ _ eq_refl) as (I1 & I2 & I3 & I4). clear IH F. cbn [bind] in E.
    (* two shapes: the head joins [out], or joins [rng], or joins [bad], or nothing *)
    assert (Hout : (out = (k, v) :: out' /\ rng = rng' /\ bad = bad' /\ has_col cols k) \/
                   (~ has_col cols k /\ out = out' /\
                    (interval cols k -> v <> QDots /\ (forall n, v <> QVal (VInt n)) /\ v <> QVal VNull /\
                       forall s, v = QVal (VStr s) -> String.length s <> 2%nat) /\
                    ((exists a b, v = QColl [a; b] /\ interval cols k /\
                        rng = (k, (item_bound a, item_bound b)) :: rng' /\ bad = bad') \/
                     (v = QNone /\ rng = rng' /\ bad = bad') \/
                     (is_bad cols k v /\ rng = rng' /\ bad = k :: bad')))).
    { destruct (mem k cols) eqn:M.
      - left. injection E as <- <- <-. apply mem_In in M. auto.
      - right. apply mem_not in M. split; [auto|]. unfold is_bad.
        destruct v as [| |[z|s|]|l].
        + injection E as <- <- <-. split; [auto|]. split; [repeat split; congruence|]. auto.
        + destruct (has_interval cols k) eqn:HI; [discriminate|].
          injection E as <- <- <-. apply has_interval_not in HI. split; [auto|]. split; [tauto|].
          right. right. repeat split; congruence.
        + destruct (has_interval cols k) eqn:HI; [discriminate|].
          injection E as <- <- <-. apply has_interval_not in HI. split; [auto|]. split; [tauto|].
          right. right. repeat split; congruence.
        + destruct (has_interval cols k) eqn:HI; cbn [andb] in E.
          * destruct (Nat.eqb_spec (String.length s) 2) as [|L]; [discriminate|].
            injection E as <- <- <-. split; [auto|]. split; [repeat split; try congruence|].
            right. right. repeat split; congruence.
          * injection E as <- <- <-. apply has_interval_not in HI. split; [auto|]. split; [tauto|].
            right. right. repeat split; congruence.
        + destruct (has_interval cols k) eqn:HI; [discriminate|].
          injection E as <- <- <-. apply has_interval_not in HI. split; [auto|]. split; [tauto|].
          right. right. repeat split; congruence.
        + destruct (has_interval cols k) eqn:HI.
          * apply has_interval_spec in HI.
            destruct l as [|a [|b [|c l]]]; injection E as <- <- <-;
              (split; [auto|]); (split; [repeat split; congruence|]).
            -- right. right. repeat split; congruence.
            -- right. right. repeat split; congruence.
            -- left. exists a, b. auto.
            -- right. right. repeat split; congruence.
          * injection E as <- <- <-. apply has_interval_not in HI. split; [auto|]. split; [tauto|].
            right. right. repeat split; try congruence. }
    clear E. destruct Hout as [(-> & -> & -> & Hk)|(Hk & -> & Hty & Hcase)].
    + split; [|split; [|split]].
      * intros k' v'. cbn. rewrite I1. split; [intros [H|H]; [injection H as <- <-|]; tauto|].
        intros [[H|H] H2]; tauto.
      * intros. rewrite I2. split; intros (a & b & H & R).
        -- exists a, b. split; [now right|auto].
        -- destruct H as [H|H]; [injection H as <- _; tauto|]. exists a, b. auto.
      * intros. rewrite I3. split; intros (w & H & R).
        -- exists w. split; [now right|auto].
        -- destruct H as [H|H]; [injection H as <- <-; tauto|]. exists w. auto.
      * intros k' v' [H|H]; [injection H as <- <-; tauto|eauto].
    + split; [|split; [|split]].
      * intros k' v'. rewrite I1. split; [intros [H1 H2]; split; auto; now right|].
        intros [[H|H] H2]; [injection H as <- <-|]; tauto.
      * intros k' lo hi. destruct Hcase as [(a & b & -> & Hi & -> & ->)|[(-> & -> & ->)|(Hb & -> & ->)]].
        -- cbn. rewrite I2. split.
           ++ intros [H|(a' & b' & H & R)].
              ** injection H as <- <- <-. exists a, b. split; [now left|]. auto.
              ** exists a', b'. split; [now right|auto].
           ++ intros (a' & b' & [H|H] & R).
              ** injection H as <- <- <-. left. destruct R as (_ & _ & -> & ->). auto.
              ** right. exists a', b'. auto.
        -- rewrite I2. split; intros (a & b & H & R).
           ++ exists a, b. split; [now right|auto].
           ++ destruct H as [H|H]; [discriminate|]. exists a, b. auto.
        -- rewrite I2. split; intros (a & b & H & R).
           ++ exists a, b. split; [now right|auto].
           ++ destruct H as [H|H]; [|exists a, b; auto]. exfalso.
              injection H as <- ->. destruct Hb as [_ Hb]. destruct R as (_ & Hi & _). eapply Hb; eauto.
      * intros k'. destruct Hcase as [(a & b & -> & Hi & -> & ->)|[(-> & -> & ->)|(Hb & -> & ->)]].
        -- rewrite I3. split; intros (w & H & R).
           ++ exists w. split; [now right|auto].
           ++ destruct H as [H|H]; [|exists w; auto]. exfalso.
              injection H as <- <-. destruct R as (_ & _ & R). eapply R; eauto.
        -- rewrite I3. split; intros (w & H & R).
           ++ exists w. split; [now right|auto].
           ++ destruct H as [H|H]; [|exists w; auto]. exfalso.
              injection H as <- <-. destruct R as (_ & R & _). congruence.
        -- cbn. rewrite I3. split.
           ++ intros [<-|(w & H & R)]; [exists v; split; [now left|auto]|]. exists w. split; [now right|auto].
           ++ intros (w & [H|H] & R); [injection H as <- <-; now left|]. right. exists w. auto.
      * intros k' v' [H|H]; [injection H as <- <-; tauto|eauto].
Qed.

Lemma split_query_err cols kw e : split_query cols kw = Err e ->
  exists k v, In (k, v) kw /\ ~ has_col cols k /\ interval cols k /\
    ((e = TypeError /\ (v = QDots \/ (exists n, v = QVal (VInt n)) \/ v = QVal VNull)) \/
     (e = Unmodelled /\ exists s, v = QVal (VStr s) /\ String.length s = 2%nat)).
Proof.
  induction kw as [|[k v] kw IH]; cbn [split_query]; [discriminate|].
  destruct (split_query cols kw) as [[[out rng] bad]|e'] eqn:F; cbn [bind].
  - destruct (mem k cols) eqn:M; [discriminate|]. apply mem_not in M.
    intros H. exists k, v. split; [now left|]. split; [auto|].
    destruct (has_interval cols k) eqn:HI.
    + apply has_interval_spec in HI. split; [auto|].
      destruct v as [| |[z|s|]|l]; try discriminate.
      * left. split; [congruence|auto].
      * left. split; [congruence|eauto].
      * cbn in H. destruct (Nat.eqb_spec (String.length s) 2); [|discriminate].
        right. split; [congruence|eauto].
      * left. split; [congruence|auto].
      * destruct l as [|a [|b [|c l]]]; discriminate.
    + destruct v as [| |[z|s|]|l]; discriminate.
  - intros H. destruct IH as (k' & w & ? & ?); [congruence|]. exists k', w. split; [now right|auto].
Qed.
