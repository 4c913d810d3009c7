(** filter_df against the declarative query, and its errors. *)
From Verif Require Import Base BaseFacts FrameModel FrameSpec FrameProofs FrameProofs2.
From Coq Require Import Strings.String Strings.Ascii Lia ZifyBool.
Local Open Scope Z_scope.
Local Open Scope string_scope.
Opaque str_suffix str_replace.

Lemma cell_eqb_spec a b : cell_eqb a b = true <-> a = b /\ a <> VNull.
Proof.
  destruct a, b; cbn; try (split; [discriminate|intros [? ?]; congruence]).
  - rewrite Z.eqb_eq. split; [intros ->|intros [H _]]; [split; congruence|congruence].
  - rewrite String.eqb_eq. split; [intros ->|intros [H _]]; [split; congruence|congruence].
Qed.
Lemma isin_spec l c : isin l c = true <-> exists i, In i l /\ item_is i c.
Proof.
  unfold isin. rewrite existsb_exists.
  split; intros [i [Hi H]]; exists i; (split; [exact Hi|]).
  - destruct i as [| |[z|s|]]; cbn in *; try discriminate.
    + destruct c; cbn in H; congruence.
    + apply cell_eqb_spec in H. tauto.
    + apply cell_eqb_spec in H. tauto.
    + destruct c; cbn in H; congruence.
  - destruct i as [| |[z|s|]]; cbn in *; try contradiction; subst; cbn; auto using Z.eqb_refl, String.eqb_refl.
Qed.
Lemma cell_le_spec a b : cell_le a b = true <-> below a b.
Proof.
  unfold below. destruct a, b; cbn; try (split; [discriminate|intros (x & y & ? & ? & ?); discriminate]).
  rewrite Z.leb_le. split; [intros; eauto|]. intros (x & y & H1 & H2 & H3). congruence.
Qed.

Lemma eqP_spec cols k v r : is_coll v = false -> has_col cols k ->
  eqP (k, v) r = true <-> meets cols r k v.
Proof.
  intros Hv Hk. unfold meets. 
  transitivity (column_query (val r k) v).
  - unfold eqP, val. cbn [fst snd]. destruct v as [| |[z|p|]|l]; cbn [column_query].
    1,2: split; [discriminate|tauto].
    + rewrite cell_eqb_spec. split; [tauto|]. intros ->. split; congruence.
    + destruct (get_cell r k) as [z|s|].
      * split; [discriminate|]. intros (s & ? & _). discriminate.
      * rewrite glob_spec. split; [eauto|]. intros (s' & E & H). congruence.
      * split; [discriminate|]. intros (s & ? & _). discriminate.
    + rewrite cell_eqb_spec. split; [intros [-> ?]; congruence|tauto].
    + discriminate.
  - split; [|tauto]. intros H. split; [auto|]. split; [|split]; tauto.
Qed.
Lemma coP_spec cols k l r : has_col cols k -> coP (k, QColl l) r = true <-> meets cols r k (QColl l).
Proof.
  intros Hk. unfold meets. transitivity (column_query (val r k) (QColl l)).
  - unfold coP, val. cbn [fst snd]. apply isin_spec.
  - split; [|tauto]. intros H. split; [auto|]. split; [|split]; tauto.
Qed.
Lemma rgP_max cols base v r : ~ has_col cols (base ++ "_max") ->
  rgP (base, true, bound_q v) r = true <-> meets cols r (base ++ "_max") v.
Proof.
  intros Hk. unfold meets, rgP, val.
  transitivity (forall b, bound_of v = Some b -> below (get_cell r base) b).
  - destruct v; cbn; try (split; [intros; discriminate|auto]).
    rewrite cell_le_spec. split; [intros ? ? H; congruence|auto].
  - split.
    + intros H. split; [tauto|]. split; [|split].
      * intros _ b' E. apply sapp_inv_tail in E. subst. auto.
      * intros _ b' E. now apply not_both in E.
      * intros _ E. exfalso. now apply (E base).
    + intros (_ & H & _). apply H; auto.
Qed.
Lemma rgP_min cols base v r : ~ has_col cols (base ++ "_min") ->
  rgP (base, false, bound_q v) r = true <-> meets cols r (base ++ "_min") v.
Proof.
  intros Hk. unfold meets, rgP, val.
  transitivity (forall b, bound_of v = Some b -> below b (get_cell r base)).
  - destruct v; cbn; try (split; [intros; discriminate|auto]).
    rewrite cell_le_spec. split; [intros ? ? H; congruence|auto].
  - split.
    + intros H. split; [tauto|]. split; [|split].
      * intros _ b' E. symmetry in E. now apply not_both in E.
      * intros _ b' E. apply sapp_inv_tail in E. subst. auto.
      * intros _ _ E. exfalso. now apply (E base).
    + intros (_ & _ & H & _). apply H; auto.
Qed.

Lemma order_ranges_spec l : forall l', order_ranges l = Ok l' ->
  (forall k r', In (k, r') l' <-> exists r, In (k, r) l /\ order_range r = Ok r') /\
  (forall k r, In (k, r) l -> exists r', order_range r = Ok r').
Proof.
  induction l as [|[k r] l IH]; intros l' E; cbn in E.
  - injection E as <-. cbn. split; [|tauto]. split; [tauto|]. intros (? & [] & _).
  - destruct (order_range r) as [r'|] eqn:F; [|discriminate]. cbn in E.
    destruct (order_ranges l) as [t'|] eqn:G; [|discriminate]. cbn in E. injection E as <-.
    destruct (IH t' eq_refl) as [I1 I2]. split.
    + intros k' s'. cbn. rewrite I1. split.
      * intros [H|(s & H & O)]; [injection H as <- <-; eauto|eauto].
      * intros (s & [H|H] & O); [injection H as <- <-; left; congruence|eauto].
    + intros k' s [H|H]; [injection H as <- <-; eauto|eauto].
Qed.
Lemma order_ranges_err l e : order_ranges l = Err e ->
  e = Unmodelled /\ exists k a b, In (k, (Some a, Some b)) l /\ ~ (number_or_null a /\ number_or_null b).
Proof.
  induction l as [|[k r] l IH]; cbn; [discriminate|].
  destruct (order_range r) as [r'|e'] eqn:F; cbn.
  - destruct (order_ranges l); cbn; [discriminate|]. intros H. destruct IH as [? (k' & a & b & ? & ?)]; [congruence|].
    split; [auto|]. exists k', a, b. auto.
  - intros H. destruct r as [[a|] [b|]]; cbn in F; try discriminate.
    destruct (cmp_ok a && cmp_ok b) eqn:C; [discriminate|]. split; [congruence|].
    exists k, a, b. split; [auto|]. rewrite <- !cmp_ok_spec. destruct (cmp_ok a), (cmp_ok b); cbn in C; intuition congruence.
Qed.

Lemma muP_spec cols k a b lh rows n r :
  ~ has_col cols k -> ~ suffixed k -> interval cols k ->
  order_range (item_bound a, item_bound b) = Ok lh ->
  multi_mask rows (k, lh) = Ok n -> In r rows ->
  muP (k, lh) r = true <-> meets cols r k (QColl [a; b]).
Proof.
  intros Hk Hs Hi Ho Hm Hr. unfold meets.
  transitivity (interval_query (val r (k ++ "_min")) (val r (k ++ "_max")) a b).
  - destruct lh as [lo hi]. unfold multi_mask in Hm.
    match type of Hm with (if ?c then _ else _) = _ => destruct c eqn:C end; [|discriminate]. clear Hm n.
    apply Bool.andb_true_iff in C. destruct C as [C C4].
    apply Bool.andb_true_iff in C. destruct C as [C C3].
    apply Bool.andb_true_iff in C. destruct C as [C1 C2].
    unfold column in C3, C4. rewrite forallb_forall in C3, C4.
    specialize (C3 _ (in_map _ _ _ Hr)). specialize (C4 _ (in_map _ _ _ Hr)). cbn beta in C3, C4.
    unfold muP, interval_query, val.
    destruct (get_cell r (k ++ "_min")) as [s|?|] eqn:Emn; [|discriminate|].
    2:{ cbn [is_null]. rewrite Bool.andb_false_r. split; [discriminate|]. intros (? & ? & ? & _). discriminate. }
    destruct (get_cell r (k ++ "_max")) as [e|?|] eqn:Emx; [|discriminate|].
    2:{ cbn [is_null orb negb]. rewrite Bool.andb_false_r. split; [discriminate|]. intros (? & ? & _ & ? & _). discriminate. }
    cbn [is_null orb negb]. rewrite Bool.andb_true_r, Bool.andb_true_iff.
    assert (Q : (match lo with None => true | Some a => negb (cell_lt (VInt e) a) end = true <-> forall x, low_end a b x -> x <= e) /\
                (match hi with None => true | Some b => negb (cell_lt b (VInt s)) end = true <-> forall x, high_end a b x -> s <= x)).
    { destruct a as [| |[za|?|]], b as [| |[zb|?|]]; cbn [item_bound order_range cmp_ok cell_lt andb] in Ho;
        try discriminate;
        try (destruct (Z.ltb_spec zb za)); injection Ho as <- <-; cbn in C1, C2; try discriminate;
        cbn [low_end high_end cell_lt negb];
        (split; split; intros;
         solve [tauto | reflexivity | lia
               | match goal with H : forall x, x = _ -> _ |- _ => specialize (H _ eq_refl); lia end]). }
    destruct Q as [Q1 Q2]. rewrite Q1, Q2. split.
    + intros [? ?]. exists s, e. auto.
    + intros (s' & e' & H1 & H2 & H3 & H4). injection H1 as <-. injection H2 as <-. auto.
  - assert (Hmx : forall base, k <> base ++ "_max") by (intros base E; apply Hs; exists base; auto).
    assert (Hmn : forall base, k <> base ++ "_min") by (intros base E; apply Hs; exists base; auto).
    destruct Hi as [Hi1 Hi2]. split.
    + intros H. split; [tauto|]. split; [|split].
      * intros _ base E. now apply Hmx in E.
      * intros _ base E. now apply Hmn in E.
      * intros _ _ _ _ _ a' b' E. injection E as <- <-. auto.
    + intros (_ & _ & _ & H). apply H; auto.
Qed.

Lemma filter_df_rows cols rows ign kw m :
  (forall k v, In (k, v) kw -> ~ has_col cols k -> plain_key k) ->
  filter_df cols rows ign kw = Ok m ->
  exists P, m = map P rows /\
    forall r, In r rows -> (P r = true <-> forall k v, In (k, v) kw -> meets cols r k v).
Proof.
  intros Hplain H. unfold filter_df in H.
  destruct (min_max_query cols kw) as [[mm rest]|] eqn:E1; [|discriminate]. cbn [bind] in H.
  destruct (split_query cols rest) as [[[out rng] bad]|] eqn:E2; [|discriminate]. cbn [bind] in H.
  destruct (negb ign && negb (Z.eqb (zlen bad) 0)) eqn:Ebad; [discriminate|].
  destruct (order_ranges rng) as [rng'|] eqn:E3; [|discriminate]. cbn [bind] in H.
  destruct (all_masks _ _ (map _ rows)) as [m1|] eqn:A1; [|discriminate]. cbn [bind] in H.
  destruct (all_masks _ _ m1) as [m2|] eqn:A2; [|discriminate]. cbn [bind] in H.
  destruct (all_masks _ _ m2) as [m3|] eqn:A3; [|discriminate]. cbn [bind] in H.
  rename H into A4.
  pose proof (all_masks_ok _ _ _ _ A4) as O4.
  apply (all_masks_spec _ eqP) in A1; [|intros [k v] n _; apply equality_mask_spec].
  subst m1.
  apply (all_masks_spec _ coP) in A2; [|intros [k v] n _; apply contains_mask_spec].
  subst m2.
  apply (all_masks_spec _ rgP) in A3; [|intros e n _; apply range_mask_spec].
  subst m3.
  apply (all_masks_spec _ muP) in A4; [|intros e n _; apply multi_mask_spec].
  destruct (min_max_query_spec cols kw mm rest E1) as (M1 & M2 & M3).
  destruct (split_query_spec cols rest out rng bad E2) as (S1 & S2 & S3 & S4).
  destruct (order_ranges_spec rng rng' E3) as (R1 & R2).
  eexists. split; [exact A4|]. intros r Hr. cbn beta.
  rewrite !Bool.andb_true_iff, !forallb_forall. split.
  - intros ((((_ & B1) & B2) & B3) & B4) k v Hkv.
    destruct (in_dec string_dec k cols) as [Hk|Hk].
    + assert (Ho : In (k, v) out) by (apply S1; split; [apply M1|]; auto).
      destruct (is_coll v) eqn:C.
      * destruct v; try discriminate. apply coP_spec; auto. apply B2, filter_In. auto.
      * apply eqP_spec; auto. apply B1, filter_In. cbn. rewrite C. auto.
    + destruct (str_suffix "_max" k) eqn:Sx; [|destruct (str_suffix "_min" k) eqn:Sn].
      * pose proof Sx as Sx'. apply str_suffix_spec in Sx. destruct Sx as [base ->].
        apply rgP_max; auto. apply B3, M2. exists (base ++ "_max"), v.
        do 3 (split; [auto|]). left. split; [auto|]. split; [auto|].
        symmetry. apply suffix_key; auto. apply (Hplain _ _ Hkv Hk).
      * pose proof Sn as Sn'. apply str_suffix_spec in Sn. destruct Sn as [base ->].
        apply rgP_min; auto. apply B3, M2. exists (base ++ "_min"), v.
        do 3 (split; [auto|]). right. split; [auto|]. split; [auto|]. split; [auto|].
        symmetry. apply suffix_key; auto. apply (Hplain _ _ Hkv Hk).
      * assert (Hs : ~ suffixed k) by (rewrite suffixed_spec, Sx, Sn; intuition congruence).
        assert (Hrest : In (k, v) rest) by (apply M1; auto).
        destruct (has_interval cols k) eqn:HI.
        -- apply has_interval_spec in HI.
           destruct v as [| |c|[|a [|b [|c l]]]].
           4,5,7: unfold meets; split; [tauto|]; split; [intros ? ? ->; exfalso; apply Hs; eexists; eauto|];
              split; [intros ? ? ->; exfalso; apply Hs; eexists; eauto|]; intros; discriminate.
           1,2,3: unfold meets; split; [tauto|]; split; [intros ? ? ->; exfalso; apply Hs; eexists; eauto|];
              split; [intros ? ? ->; exfalso; apply Hs; eexists; eauto|]; intros; discriminate.
           assert (Hin : In (k, (item_bound a, item_bound b)) rng) by (apply S2; exists a, b; auto).
           destruct (R2 _ _ Hin) as [lh Hlh].
           assert (Hin' : In (k, lh) rng') by (apply R1; eauto).
           destruct (O4 _ Hin') as [n Hn].
           eapply muP_spec; eauto.
        -- apply has_interval_not in HI. unfold interval in HI. unfold meets; split; [tauto|]; split; [intros ? ? ->; exfalso; apply Hs; eexists; eauto|];
              split; [intros ? ? ->; exfalso; apply Hs; eexists; eauto|]. intros. exfalso. tauto.
  - intros Hmeets. split; [split; [split; [split; [reflexivity|]|]|]|].
    + intros [k v] Hin. apply filter_In in Hin. destruct Hin as [Hin C]. cbn in C.
      apply Bool.negb_true_iff in C. apply S1 in Hin. destruct Hin as [Hin Hk].
      apply (eqP_spec cols); auto. apply Hmeets. now apply M1.
    + intros [k v] Hin. apply filter_In in Hin. destruct Hin as [Hin C]. cbn in C.
      apply S1 in Hin. destruct Hin as [Hin Hk]. destruct v; try discriminate.
      apply (coP_spec cols); auto. apply Hmeets. now apply M1.
    + intros [[b im] bd] Hin. apply M2 in Hin. destruct Hin as (k & v & Hkv & Hk & -> & [(-> & Sx & ->)|(-> & Sx & Sn & ->)]).
      * apply str_suffix_spec in Sx. destruct Sx as [base ->].
        rewrite suffix_key; auto; [|apply (Hplain _ _ Hkv Hk)]. eapply rgP_max; eauto.
      * apply str_suffix_spec in Sn. destruct Sn as [base ->].
        rewrite suffix_key; auto; [|apply (Hplain _ _ Hkv Hk)]. eapply rgP_min; eauto.
    + intros [k lh] Hin. pose proof Hin as Hin0. apply R1 in Hin. destruct Hin as ([lo hi] & Hin & Ho).
      apply S2 in Hin. destruct Hin as (a & b & Hin & Hk & Hi & -> & ->).
      destruct (O4 _ Hin0) as [n Hn]. apply M1 in Hin. destruct Hin as [Hin Hs].
      eapply muP_spec; eauto. tauto.
Qed.
