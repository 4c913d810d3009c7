(** Lemmas behind TrendProps.v: kurtosis of patches. *)
From Verif Require Import Base BaseFacts CoordModel CoordSpec CoordProofs CoordProofs3 CoordProofs5 NdModel NdSpec NdProofs FrameModel ChunkModel ChunkProofs2
  CmModel CmSpec CmProofs CmProofs3 CmProofs13 TaperProofs2 ReadProofs MuteModel MuteProofs2 CalcModel CalcProofs CalcProofs3
  MoveModel MoveSpec MoveProofs MoveProofs5 TrendModel TrendSpec TrendProofs TrendProofs2 TrendProofs3.
From Coq Require Import Strings.String ZifyBool QArith Qpower Qabs Lqa.
Local Open Scope Z_scope.
Local Open Scope list_scope.

Lemma weight_range w : 2 <= w -> (0 < 1 - 1 / inject_Z w)%Q /\ (1 - 1 / inject_Z w < 1)%Q.
Proof.
  intros W. assert (H : (2 <= inject_Z w)%Q) by (change 2%Q with (inject_Z 2); rewrite <- Zle_Qle; exact W).
  assert (A : (0 < 1 / inject_Z w)%Q) by (apply Qlt_shift_div_l; lra). assert (B : (1 / inject_Z w < 1)%Q) by (apply Qlt_shift_div_r; lra). lra.
Qed.
Lemma all_zero_dec (f : list Q) : (forall x, In x f -> (x == 0)%Q) \/ ~ (forall x, In x f -> (x == 0)%Q).
Proof.
  induction f as [|y t [IH|IH]].
  - left. intros x [].
  - destruct (Qeq_dec y 0) as [E|E]; [left; intros x [<-|I]; auto|right; intros H; apply E, H; left; reflexivity].
  - right. intros H. apply IH. intros x I. apply H. right. exact I.
Qed.
Lemma qvar_zero (f : list Q) : (forall x, In x f -> (x == 0)%Q) -> (qvar f == 0)%Q.
Proof.
  intros H. unfold qvar. assert (M : (qmean f == 0)%Q).
  { unfold qmean. rewrite <- (map_id f) at 1. rewrite (qsum_ext (fun x => x) (fun _ => 0%Q)) by exact H. rewrite qsum_const. unfold Qdiv. ring. }
  unfold qmean at 1. rewrite (qsum_ext _ (fun _ => 0%Q)) by (intros x X; rewrite (H x X), M; ring). rewrite qsum_const. unfold Qdiv. ring.
Qed.
Lemma at_in f j : 0 <= j < zlen f -> In (at_ f j) f.
Proof. intros J. apply (znth_in f j). apply znth_at, J. Qed.
Lemma recursive_ok w f : 2 <= w -> recursive_kurtosis w f (recursive_line w f).
Proof.
  intros W. destruct (weight_range w W) as [C C1]. unfold recursive_kurtosis. cbv zeta. set (c := (1 - 1 / inject_Z w)%Q) in *.
  unfold recursive_line. fold c. set (v := qvar f). split; [apply run_len|]. split.
  - intros Z u U. apply in_znth in U. destruct U as [j Ej].
    assert (J : 0 <= j < zlen f) by (rewrite <- (run_len c v f (mkRs 0 0 (Some 0%Q))); apply znth_range; eauto).
    rewrite run_at in Ej by exact J. apply some_inj in Ej. subst u. apply run_zero; auto.
    + apply qvar_zero, Z.
    + intros i I. apply Z, at_in, I.
  - intros Z. assert (NE : f <> []) by (intros ->; apply Z; intros x []).
    assert (V : (0 <= v)%Q) by (apply var_nonneg, NE).
    assert (P : (0 < v)%Q \/ ~ (at_ f 0 == 0)%Q).
    { destruct (Qlt_le_dec 0 v) as [H|H]; [left; exact H|right]. intros K. apply Z. intros x X.
      assert (E : (v == 0)%Q) by lra. assert (A := var_zero f NE E). rewrite (A x (at_ f 0) X); [exact K|]. apply at_in. pose proof (zlen_pos f NE). lia. }
    assert (T := top_pos c v C C1 V f P).
    assert (K := kurt_fading c v C f T).
    set (st j := fold_left (rec_step c v) (firstn (Z.to_nat j) f) (mkRs 0 0 (Some 0%Q))) in *.
    set (n := zlen f) in *. assert (N : 0 <= n) by apply zlen_nonneg.
    set (mean := fun j => rs_mean (st (j + 1))) in *. set (var := fun j => rs_var (st (j + 1))) in *.
    set (top := fun j => if qle (var j) v then v else var j) in *.
    set (e := fun j => (Qpower (at_ f j - mean j) 4 / (top j * top j))%Q) in *.
    set (kq := fun j => match rs_kurt (st (j + 1)) with Some k => k | None => 0%Q end).
    exists v, (map mean (zrange n)), (map var (zrange n)), (map e (zrange n)), (map kq (zrange n)).
    split; [apply var_central, NE|]. rewrite !zlen_mapr by exact N. do 4 (split; [reflexivity|]). split.
    { apply znth_ext_len; [rewrite run_len, zlen_map, zlen_mapr by exact N; reflexivity|]. intros j J. rewrite run_len in J. fold n in J.
      rewrite run_at by exact J. fold (st (j + 1)). rewrite znth_map, znth_mapr by exact J. cbn [option_map]. f_equal. unfold kq.
      destruct (K (j + 1) ltac:(lia)) as (x & X & _). rewrite X. reflexivity. }
    intros j x m u y k Ex Em Ev Ee Ek.
    assert (J : 0 <= j < n) by (apply znth_range; eauto).
    rewrite znth_mapr in Em, Ev, Ee, Ek by exact J. apply some_inj in Em, Ev, Ee, Ek. subst m u y k. apply at_znth in Ex. subst x.
    assert (FM : f = map (at_ f) (zrange n)) by apply list_mapr.
    assert (FC : map (fun t => (fst t - snd t) * (fst t - snd t))%Q (combine f (map mean (zrange n))) = map (fun j => (at_ f j - mean j) * (at_ f j - mean j))%Q (zrange n)).
    { rewrite FM at 1. rewrite combine_mapr, map_map. reflexivity. }
    rewrite FC, !upto_mapr by exact J. split; [|split; [|split]].
    + rewrite FM at 1. rewrite upto_mapr by exact J. apply (mean_fading c v C f (j + 1)). lia.
    + apply (var_fading c v C f (j + 1)). lia.
    + exists (top j). split; [unfold top; destruct (qle (var j) v); [right|left]; reflexivity|].
      assert (TP : (0 < top j)%Q) by (apply T, J).
      split; [|split; [|split; [exact TP|]]].
      * unfold top. destruct (qle (var j) v) eqn:E; [apply qle_iff in E; exact E|apply Qle_refl].
      * unfold top. destruct (qle (var j) v) eqn:E; [apply Qle_refl|apply qle_false in E; lra].
      * unfold e. field. intros H. lra.
    + destruct (K (j + 1) ltac:(lia)) as (y & Y & F). unfold kq. rewrite Y. exact F.
Qed.

(** ** The number of samples *)
Lemma ascending_ok r : wf_range r -> exists s, ascending_range r = Ok s /\ wf_range s /\ 0 < r_step s /\ r_step s = Z.abs (r_step r).
Proof.
  intros W. unfold ascending_range. destruct (r_step r <? 0) eqn:E.
  - destruct W as (W1 & W2 & W3). unfold r_sort, r_sorted, r_reverse_sorted. destruct (0 <=? r_step r) eqn:E'; [lia|]. cbn [negb andb orb fst].
    assert (L : r_min r = r_start r + (r_len r - 1) * r_step r) by (unfold r_min, r_max; nia).
    assert (H : r_max r + - r_step r = r_min r + (- r_step r) * r_len r) by (rewrite L; unfold r_max; nia).
    rewrite H, r_new_exact by lia. eexists. split; [reflexivity|]. unfold wf_range. cbn. repeat split; lia.
  - exists r. destruct W as (W1 & W2 & W3). repeat split; auto; lia.
Qed.

Lemma window_samples_ok r v samples n : wf_range r -> samples_asked samples r v n ->
  window_samples r v samples = if n <? 2 then Err ParameterError else Ok n.
Proof.
  intros W A. unfold window_samples. destruct (ascending_ok r W) as (s & -> & Ws & P & E). cbn [bind].
  destruct samples; cbn [samples_asked] in A.
  - subst n. reflexivity.
  - destruct A as [V A]. destruct (sample_count_spec s v false Ws P V) as (m & B & ->). cbn [andb bind].
    assert (m = n) by (rewrite <- E in A; nia). subst m. reflexivity.
Qed.
Lemma kurtosis_ok (p : patch Q) ax d r samples recursive v n : wf_patch p -> nth_error (cm_dims (p_cm p)) ax = Some d ->
  assoc d (cm_coords (p_cm p)) = Some (M1 (CRange r)) -> samples_asked samples r v n -> 2 <= n ->
  exists q, pt_kurtosis samples recursive [(d, v)] p = Ok q /\ p_cm q = p_cm p /\
    by_line (if recursive then recursive_kurtosis n else windowed_kurtosis n) ax (p_data p) (p_data q).
Proof.
  intros W E C A N. destruct (axis_shape p ax d W E) as [k Sk].
  set (F := if recursive then recursive_line n else windowed_line n).
  assert (FL : forall vs, zlen (F vs) = zlen vs) by (intros vs; unfold F; destruct recursive; [apply run_len|apply zlen_mapr, zlen_nonneg]).
  destruct (along_lines F ax (p_data p) k (wp_nd _ W) Sk FL) as (b & Eb & L).
  exists (mkPatch (p_cm p) b). unfold pt_kurtosis.
  assert (D : In d (cm_dims (p_cm p))) by (eapply nth_error_In; eauto).
  assert (NM : named_dims (cm_dims (p_cm p)) [(d, v)] = Ok [(d, v)]) by (apply named_all; [discriminate|intros e [<-|[]]; exact D]).
  cbn [filter fst]. rewrite (proj2 (mem_dims d _) D), NM. cbn [bind]. rewrite C, (axis_index _ _ _ W E).
  assert (Wr : wf_range r) by exact (wf_vals _ (wp_cm _ W) _ _ C).
  rewrite (window_samples_ok r v samples n Wr A). destruct (n <? 2) eqn:Q; [lia|]. cbn [bind]. fold F. rewrite Eb. cbn [opt_result bind].
  split; [apply fits_shape; [exact W|apply L|apply L]|]. split; [reflexivity|].
  revert L. apply by_line_weaken. intros f g ->. unfold F. destruct recursive; [apply recursive_ok|apply windowed_ok]; exact N.
Qed.
Lemma kurtosis_refused (p : patch Q) samples recursive : wf_patch p ->
  (forall kw, (forall d v, In (d, v) kw -> ~ In d (cm_dims (p_cm p))) -> pt_kurtosis samples recursive kw p = Err ParameterError) /\
  (forall kw d v d' v', NoDup (map fst kw) -> In (d, v) kw -> In (d', v') kw -> d <> d' -> In d (cm_dims (p_cm p)) ->
     pt_kurtosis samples recursive kw p = Err (if mem d' (cm_dims (p_cm p)) then ParameterError else
       if (1 <? zlen (filter (fun e => mem (fst e) (cm_dims (p_cm p))) kw))%Z then ParameterError else PatchCoordinateError)) /\
  (forall d v r n, In d (cm_dims (p_cm p)) -> assoc d (cm_coords (p_cm p)) = Some (M1 (CRange r)) ->
     samples_asked samples r v n -> n < 2 -> pt_kurtosis samples recursive [(d, v)] p = Err ParameterError) /\
  (forall d v, In d (cm_dims (p_cm p)) -> (forall r, assoc d (cm_coords (p_cm p)) <> Some (M1 (CRange r))) ->
     pt_kurtosis samples recursive [(d, v)] p = Err CoordError).
Proof.
  intros W. set (dims := cm_dims (p_cm p)). split; [|split; [|split]].
  - intros kw H. unfold pt_kurtosis. fold dims. assert (F : filter (fun e => mem (fst e) dims) kw = []).
    { induction kw as [|[d v] t IH]; [reflexivity|]. cbn [filter fst]. destruct (mem d dims) eqn:M; [apply mem_dims in M; destruct (H d v (or_introl eq_refl) M)|].
      apply IH. intros d' v' I. apply (H d' v'). right. exact I. }
    unfold named_dims. rewrite F. reflexivity.
  - intros kw d v d' v' ND I I' NE D. unfold pt_kurtosis. fold dims.
    assert (F : In (d, v) (filter (fun e => mem (fst e) dims) kw)) by (apply filter_In; split; [exact I|apply mem_dims, D]).
    destruct (mem d' dims) eqn:M.
    + assert (F' : In (d', v') (filter (fun e => mem (fst e) dims) kw)) by (apply filter_In; split; [exact I'|exact M]).
      destruct (filter (fun e => mem (fst e) dims) kw) as [|a [|b t]] eqn:Q; [destruct F| |reflexivity].
      destruct F as [F|[]]. destruct F' as [F'|[]]. congruence.
    + unfold named_dims. assert (LT : zlen (filter (fun e => mem (fst e) dims) kw) < zlen kw).
      { clear - I' M. unfold zlen. assert (List.length (filter (fun e => mem (fst e) dims) kw) < List.length kw)%nat; [|lia].
        induction kw as [|a t IH]; [destruct I'|]. cbn [filter]. assert (LE : (List.length (filter (fun e => mem (fst e) dims) t) <= List.length t)%nat).
        { clear. induction t as [|x t IH]; cbn; [lia|]. destruct (mem (fst x) dims); cbn; lia. }
        destruct I' as [->|I']; [cbn [fst]; rewrite M; cbn; lia|]. specialize (IH I'). destruct (mem (fst a) dims); cbn; lia. }
      destruct (filter (fun e => mem (fst e) dims) kw) as [|a [|b t]] eqn:Q; [destruct F| |].
      * cbn [bind]. destruct (zlen [a] =? zlen kw) eqn:Z; [lia|]. change (zlen [a]) with 1. reflexivity.
      * replace (1 <? zlen (a :: b :: t)) with true by (unfold zlen; cbn [List.length]; lia). reflexivity.
  - intros d v r n D C A N. unfold pt_kurtosis. assert (NM : named_dims dims [(d, v)] = Ok [(d, v)]) by (apply named_all; [discriminate|intros e [<-|[]]; exact D]).
    fold dims. cbn [filter fst]. rewrite (proj2 (mem_dims d _) D), NM. cbn [bind]. rewrite C. destruct (proj2 (index_of_In d _) D) as [ax ->].
    assert (Wr : wf_range r) by exact (wf_vals _ (wp_cm _ W) _ _ C). rewrite (window_samples_ok r v samples n Wr A). destruct (n <? 2) eqn:Q; [|lia]. reflexivity.
  - intros d v D C. unfold pt_kurtosis. assert (NM : named_dims dims [(d, v)] = Ok [(d, v)]) by (apply named_all; [discriminate|intros e [<-|[]]; exact D]).
    fold dims. cbn [filter fst]. rewrite (proj2 (mem_dims d _) D), NM. cbn [bind].
    destruct (assoc d (cm_coords (p_cm p))) as [[[]| |]|] eqn:Q; try reflexivity. destruct (C r eq_refl).
Qed.
