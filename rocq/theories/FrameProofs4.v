(** Errors of filter_df, and adjust_segments. *)
From Verif Require Import Base BaseFacts FrameModel FrameSpec FrameProofs FrameProofs2 FrameProofs3.
From Coq Require Import Strings.String Strings.Ascii Lia ZifyBool.
Local Open Scope Z_scope.
Local Open Scope string_scope.
Opaque str_suffix str_replace.

Lemma substring_app a b : substring 0 (String.length a) (a ++ b) = a.
Proof. induction a; cbn; [now destruct b|congruence]. Qed.
Lemma drop_last4_app base suf : String.length suf = 4%nat -> drop_last4 (base ++ suf) = base.
Proof.
  intros H. unfold drop_last4. rewrite slen_app, H, Nat.add_sub. apply substring_app.
Qed.

Lemma misdirected_spec cols k l : misdirected cols k l = true <->
  exists base a b, (k = base ++ "_min" \/ k = base ++ "_max") /\ interval cols base /\
    l = [a; b] /\ (open_end a \/ open_end b).
Proof.
  unfold misdirected. rewrite !Bool.andb_true_iff, Bool.orb_true_iff, !str_suffix_spec. split.
  - intros (((Hs & Hi) & Hl) & Ho).
    assert (Hb : exists base, (k = base ++ "_min" \/ k = base ++ "_max") /\ interval cols base).
    { destruct Hs as [[base ->]|[base ->]]; exists base; (split; [auto|]); rewrite drop_last4_app in Hi by reflexivity; now apply has_interval_spec. }
    destruct Hb as (base & Hb & Hb'). exists base.
    destruct l as [|a [|b [|c l]]]; [discriminate Hl|discriminate Hl| |].
    + exists a, b. split; [auto|]. split; [auto|]. split; [auto|].
      cbn in Ho. unfold open_end. destruct a, b; cbn in Ho; auto; discriminate.
    + rewrite !zlen_cons in Hl. pose proof (zlen_nonneg l). lia.
  - intros (base & a & b & Hs & Hi & -> & Ho). split; [split; [split|]|].
    + destruct Hs as [->| ->]; eauto.
    + destruct Hs as [->| ->]; rewrite drop_last4_app by reflexivity; now apply has_interval_spec.
    + reflexivity.
    + cbn. unfold open_end in Ho. destruct a, b; cbn; auto; destruct Ho as [[]|[]]; discriminate.
Qed.

Lemma forallb_column_false rows k (f : cell -> bool) :
  forallb f (column rows k) = false -> exists r, In r rows /\ f (get_cell r k) = false.
Proof.
  unfold column. induction rows as [|r rows IH]; cbn; [discriminate|].
  destruct (f (get_cell r k)) eqn:E; cbn.
  - intros H. destruct (IH H) as (r' & ? & ?). eauto.
  - eauto.
Qed.
Lemma forallb_column_true rows k (f : cell -> bool) :
  forallb f (column rows k) = true -> forall r, In r rows -> f (get_cell r k) = true.
Proof. unfold column. rewrite forallb_forall. intros H r Hr. apply H. apply (in_map (fun r => get_cell r k)). auto. Qed.

Lemma is_str_spec c : is_str c = true <-> exists s, c = VStr s.
Proof. destruct c; cbn; split; intros H; try discriminate; eauto; destruct H; discriminate. Qed.

Lemma filter_df_err cols rows ign kw e :
  (forall k v, In (k, v) kw -> ~ has_col cols k -> plain_key k) ->
  filter_df cols rows ign kw = Err e ->
  exists k v, In (k, v) kw /\ Refused cols rows ign k v e.
Proof.
  intros Hplain H. unfold filter_df in H.
  destruct (min_max_query cols kw) as [[mm rest]|e0] eqn:E1; cbn [bind] in H.
  2:{ apply min_max_query_err in E1. destruct E1 as (-> & k & l & Hin & Hk & Hs).
      exists k, (QColl l). split; [auto|]. injection H as <-. now apply R_suffix_coll. }
  destruct (min_max_query_spec cols kw mm rest E1) as (M1 & M2 & M3).
  destruct (split_query cols rest) as [[[out rng] bad]|e0] eqn:E2; cbn [bind] in H.
  2:{ apply split_query_err in E2. destruct E2 as (k & v & Hin & Hk & Hi & Hc).
      apply M1 in Hin. destruct Hin as [Hin Hs]. exists k, v. split; [auto|]. injection H as <-.
      destruct Hc as [(-> & Hc)|(-> & s & -> & L)].
      - apply R_not_sized; tauto.
      - apply R_two_chars; tauto. }
  destruct (split_query_spec cols rest out rng bad E2) as (S1 & S2 & S3 & S4).
  destruct (negb ign && negb (Z.eqb (zlen bad) 0)) eqn:Ebad.
  { injection H as <-. apply Bool.andb_true_iff in Ebad. destruct Ebad as [Ei Eb].
    apply Bool.negb_true_iff in Ei, Eb.
    destruct bad as [|k bad]; [discriminate|].
    destruct (proj1 (S3 k) (or_introl eq_refl)) as (v & Hin & Hk & Hb).
    apply M1 in Hin. destruct Hin as [Hin Hs]. exists k, v. split; [auto|].
    apply R_unknown; auto; try tauto; apply Hb. }
  clear Ebad.
  destruct (order_ranges rng) as [rng'|e0] eqn:E3; cbn [bind] in H.
  2:{ apply order_ranges_err in E3. destruct E3 as (-> & k & x & y & Hin & Hbad). injection H as <-.
      apply S2 in Hin. destruct Hin as (a & b & Hin & Hk & Hi & Ha & Hb).
      apply M1 in Hin. destruct Hin as [Hin Hs]. exists k, (QColl [a; b]). split; [auto|].
      apply R_string_range; try tauto. intros (Na & Nb & _). apply Hbad.
      destruct a, b; cbn in Ha, Hb; try discriminate. injection Ha as ->. injection Hb as ->. auto. }
  destruct (order_ranges_spec rng rng' E3) as (R1 & R2).
  destruct (all_masks _ _ (map _ rows)) as [m1|e0] eqn:A1; cbn [bind] in H.
  2:{ injection H as <-. apply all_masks_err in A1. destruct A1 as ([k v] & Hin & Hf). cbn [fst snd] in Hf.
      apply filter_In in Hin. destruct Hin as [Hin C]. cbn in C. apply S1 in Hin. destruct Hin as [Hin Hk].
      apply M1 in Hin. destruct Hin as [Hin _]. exists k, v. split; [auto|].
      destruct v as [| |[z|p|]|l]; cbn in Hf, C; try discriminate.
      destruct (has_char bracket p) eqn:B.
      - cbn in Hf. injection Hf as <-. apply R_pattern; auto. left. now apply has_char_spec.
      - cbn in Hf. destruct (forallb is_str (column rows k)) eqn:F; [discriminate|]. injection Hf as <-.
        apply forallb_column_false in F. destruct F as (r & Hr & F).
        apply R_pattern; auto. right. exists r. split; [auto|]. intros s Hs. unfold val in Hs. rewrite Hs in F. discriminate. }
  destruct (all_masks _ _ m1) as [m2|e0] eqn:A2; cbn [bind] in H.
  2:{ injection H as <-. apply all_masks_err in A2. destruct A2 as ([k v] & Hin & Hf). cbn [fst snd] in Hf.
      apply filter_In in Hin. destruct Hin as [Hin C]. cbn in C. apply S1 in Hin. destruct Hin as [Hin Hk].
      apply M1 in Hin. destruct Hin as [Hin _]. exists k, v. split; [auto|].
      destruct v as [| |c|l]; try discriminate. unfold contains_mask in Hf.
      destruct (misdirected cols k l) eqn:Em; [|discriminate]. injection Hf as <-.
      apply misdirected_spec in Em. destruct Em as (base & a & b & Hb & Hi & -> & Ho).
      eapply R_misdirected; eauto. }
  destruct (all_masks _ _ m2) as [m3|e0] eqn:A3; cbn [bind] in H.
  2:{ injection H as <-. apply all_masks_err in A3. destruct A3 as ([[b im] bd] & Hin & Hf).
      apply M2 in Hin. destruct Hin as (k & v & Hin & Hk & -> & Hc).
      exists k, v. split; [auto|].
      assert (Hb : (k = b ++ "_max" \/ k = b ++ "_min")).
      { destruct Hc as [(_ & Sx & ->)|(_ & _ & Sn & ->)].
        - apply str_suffix_spec in Sx. destruct Sx as [t ->]. left. rewrite suffix_key; auto.
          apply (Hplain _ _ Hin Hk).
        - apply str_suffix_spec in Sn. destruct Sn as [t ->]. right. rewrite suffix_key; auto.
          apply (Hplain _ _ Hin Hk). }
      unfold range_mask in Hf. destruct (mem b cols) eqn:Mb.
      - destruct (bound_q v) as [c|] eqn:Bv; [|discriminate].
        match type of Hf with (if ?c then _ else _) = _ => destruct c eqn:C end; [discriminate|]. injection Hf as <-.
        eapply R_suffix_str; eauto.
        intros [N1 N2]. apply cmp_ok_spec in N1. rewrite N1 in C. cbn in C.
          apply forallb_column_false in C. destruct C as (r & Hr & C). specialize (N2 r Hr).
          apply cmp_ok_spec in N2. unfold val in N2. congruence.
      - injection Hf as <-. apply mem_not in Mb. eapply R_suffix_missing; eauto. }
  apply all_masks_err in H. destruct H as ([k lh] & Hin & Hf).
  apply R1 in Hin. destruct Hin as ([lo hi] & Hin & Ho).
  apply S2 in Hin. destruct Hin as (a & b & Hin & Hk & Hi & -> & ->).
  apply M1 in Hin. destruct Hin as [Hin Hs]. exists k, (QColl [a; b]). split; [auto|].
  destruct lh as [lo hi]. unfold multi_mask in Hf.
  match type of Hf with (if ?c then _ else _) = _ => destruct c eqn:C end; [discriminate|].
  injection Hf as <-. apply R_string_range; try tauto. intros (Na & Nb & Nr).
  assert (C3 : forallb cmp_ok (column rows (k ++ "_min")) = true).
  { apply forallb_forall. intros c Hc. unfold column in Hc. apply in_map_iff in Hc. destruct Hc as (r & <- & Hr).
    apply cmp_ok_spec. apply (Nr r Hr). }
  assert (C4 : forallb cmp_ok (column rows (k ++ "_max")) = true).
  { apply forallb_forall. intros c Hc. unfold column in Hc. apply in_map_iff in Hc. destruct Hc as (r & <- & Hr).
    apply cmp_ok_spec. apply (Nr r Hr). }
  rewrite C3, C4, !Bool.andb_true_r in C.
  assert (Na' : forall c, item_bound a = Some c -> cmp_ok c = true).
  { intros c Hc. apply cmp_ok_spec, Na. destruct a; cbn in Hc; congruence. }
  assert (Nb' : forall c, item_bound b = Some c -> cmp_ok c = true).
  { intros c Hc. apply cmp_ok_spec, Nb. destruct b; cbn in Hc; congruence. }
  destruct (item_bound a) as [ca|], (item_bound b) as [cb|]; cbn [order_range] in Ho.
  - specialize (Na' _ eq_refl). specialize (Nb' _ eq_refl). rewrite Na', Nb' in Ho. cbn [andb] in Ho.
    destruct (cell_lt cb ca); injection Ho as <- <-; rewrite ?Na', ?Nb' in C; discriminate.
  - specialize (Na' _ eq_refl). injection Ho as <- <-. rewrite Na' in C. discriminate.
  - specialize (Nb' _ eq_refl). injection Ho as <- <-. rewrite Nb' in C. discriminate.
  - injection Ho as <- <-. discriminate.
Qed.

Lemma filter_df_ok cols rows ign kw m :
  (forall k v, In (k, v) kw -> ~ has_col cols k -> plain_key k) ->
  filter_df cols rows ign kw = Ok m ->
  forall k v e, In (k, v) kw -> ~ Refused cols rows ign k v e.
Proof.
  intros Hplain H. unfold filter_df in H.
  destruct (min_max_query cols kw) as [[mm rest]|] eqn:E1; [|discriminate]. cbn [bind] in H.
  destruct (split_query cols rest) as [[[out rng] bad]|] eqn:E2; [|discriminate]. cbn [bind] in H.
  destruct (negb ign && negb (Z.eqb (zlen bad) 0)) eqn:Ebad; [discriminate|].
  destruct (order_ranges rng) as [rng'|] eqn:E3; [|discriminate]. cbn [bind] in H.
  destruct (all_masks _ _ (map _ rows)) as [m1|] eqn:A1; [|discriminate]. cbn [bind] in H.
  destruct (all_masks _ _ m1) as [m2|] eqn:A2; [|discriminate]. cbn [bind] in H.
  destruct (all_masks _ _ m2) as [m3|] eqn:A3; [|discriminate]. cbn [bind] in H.
  rename H into A4.
  pose proof (all_masks_ok _ _ _ _ A1) as O1. pose proof (all_masks_ok _ _ _ _ A2) as O2.
  pose proof (all_masks_ok _ _ _ _ A3) as O3. pose proof (all_masks_ok _ _ _ _ A4) as O4.
  destruct (min_max_query_spec cols kw mm rest E1) as (M1 & M2 & M3).
  destruct (split_query_spec cols rest out rng bad E2) as (S1 & S2 & S3 & S4).
  destruct (order_ranges_spec rng rng' E3) as (R1 & R2).
  assert (Hmm : forall k v base, In (k, v) kw -> ~ has_col cols k -> k = base ++ "_max" \/ k = base ++ "_min" ->
            exists im, In (base, im, bound_q v) mm).
  { intros k v base Hin Hk [-> | ->].
    - exists true. apply M2. exists (base ++ "_max"), v. do 3 (split; [auto|]). left.
      split; [auto|]. split; [apply str_suffix_spec; eauto|]. rewrite suffix_key; auto. apply (Hplain _ _ Hin Hk).
    - exists false. apply M2. exists (base ++ "_min"), v. do 3 (split; [auto|]). right.
      split; [auto|]. split.
      + destruct (str_suffix "_max" (base ++ "_min")) eqn:S; [|auto]. apply str_suffix_spec in S.
        destruct S as [t S]. symmetry in S. now apply not_both in S.
      + split; [apply str_suffix_spec; eauto|]. rewrite suffix_key; auto. apply (Hplain _ _ Hin Hk). }
  intros k v e Hin R. destruct R.
  - apply M3 in Hin. tauto.
  - destruct (Hmm _ _ _ Hin H H0) as [im Hm]. destruct (O3 _ Hm) as [n Hn]. unfold range_mask in Hn.
    apply mem_not in H1. rewrite H1 in Hn. discriminate.
  - destruct (Hmm _ _ _ Hin H H0) as [im Hm]. destruct (O3 _ Hm) as [n Hn]. unfold range_mask in Hn.
    destruct (mem base cols); [|discriminate].
    assert (bound_q v = Some b) as Bv by (destruct v; auto). rewrite Bv in Hn.
    match type of Hn with (if ?c then _ else _) = _ => destruct c eqn:C end; [|discriminate]. apply Bool.andb_true_iff in C. destruct C as [C1 C2].
    apply H2. split; [now apply cmp_ok_spec|]. intros r Hr. apply cmp_ok_spec. eapply forallb_column_true; eauto.
  - assert (Ho : In (k, QVal (VStr p)) (filter (fun p => negb (is_coll (snd p))) out)).
    { apply filter_In. split; [|reflexivity]. apply S1. split; auto. apply M1. auto. }
    destruct (O1 _ Ho) as [n Hn]. cbn in Hn. destruct H0 as [H0|(r & Hr & H0)].
    + apply has_char_spec in H0. fold bracket in H0. rewrite H0 in Hn. discriminate.
    + destruct (has_char bracket p); [discriminate|]. cbn in Hn.
      destruct (forallb is_str (column rows k)) eqn:F; [|discriminate].
      pose proof (forallb_column_true _ _ _ F r Hr) as G. apply is_str_spec in G. destruct G as [s G]. now apply (H0 s).
  - assert (Ho : In (k, QColl [a; b]) (filter (fun p => is_coll (snd p)) out)).
    { apply filter_In. split; [|reflexivity]. apply S1. split; auto. apply M1. auto. }
    destruct (O2 _ Ho) as [n Hn]. cbn [fst snd] in Hn. unfold contains_mask in Hn.
    rewrite (proj2 (misdirected_spec cols k [a; b])) in Hn; [discriminate|]. exists base, a, b. auto.
  - assert (Hr : In (k, v) rest) by (apply M1; auto).
    destruct (S4 _ _ Hr H H1) as (B1 & B2 & B3 & B4). destruct H2 as [?|[[n ?]|?]]; try tauto. now apply (B2 n).
  - assert (Hr : In (k, QVal (VStr s)) rest) by (apply M1; auto).
    destruct (S4 _ _ Hr H H1) as (B1 & B2 & B3 & B4). now apply (B4 s).
  - assert (Hr : In (k, QColl [a; b]) rest) by (apply M1; auto).
    assert (Hg : In (k, (item_bound a, item_bound b)) rng) by (apply S2; exists a, b; auto).
    destruct (R2 _ _ Hg) as [[lo hi] Hlh].
    assert (Hg' : In (k, (lo, hi)) rng') by (apply R1; eauto).
    destruct (O4 _ Hg') as [n Hn]. unfold multi_mask in Hn.
    match type of Hn with (if ?c then _ else _) = _ => destruct c eqn:C end; [|discriminate].
    apply Bool.andb_true_iff in C. destruct C as [C C4].
    apply Bool.andb_true_iff in C. destruct C as [C C3].
    apply Bool.andb_true_iff in C. destruct C as [C1 C2].
    apply H2. split; [|split].
    + intros c ->. apply cmp_ok_spec. cbn [item_bound] in Hlh.
      destruct (item_bound b) as [cb|]; cbn in Hlh.
      * destruct (cmp_ok c); [auto|discriminate].
      * injection Hlh as <- <-. auto.
    + intros c ->. apply cmp_ok_spec. cbn [item_bound] in Hlh.
      destruct (item_bound a) as [ca|]; cbn in Hlh.
      * destruct (cmp_ok c); [auto|]. rewrite Bool.andb_false_r in Hlh. discriminate.
      * injection Hlh as <- <-. auto.
    + intros r Hr'. split; apply cmp_ok_spec; eapply forallb_column_true; eauto.
  - assert (Hr : In (k, v) rest) by (apply M1; auto).
    assert (Hb : In k bad) by (apply S3; exists v; split; [auto|split; [auto|split; auto]]).
    rewrite H in Ebad. cbn in Ebad. destruct bad; [destruct Hb|].
    rewrite zlen_cons in Ebad. pose proof (zlen_nonneg bad). lia.
Qed.
