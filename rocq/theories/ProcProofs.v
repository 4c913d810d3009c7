(** Lemmas behind ProcProps.v: moving traces of an array. *)
From Verif Require Import Base BaseFacts CoordModel CoordSpec CoordProofs CoordProofs2 CoordProofs5
  NdModel NdSpec NdProofs NdProofs2 FrameModel ChunkModel CmModel CmSpec CmProofs CmProofs2 ProcModel.
From Coq Require Import ZifyBool.
Ltac Zify.zify_post_hook ::= Z.div_mod_to_equations.
Local Open Scope Z_scope.
Local Open Scope list_scope.

Lemma span_spec n a b : 0 <= n -> 0 <= a -> 0 <= b ->
  span n (a, b) = Ok (map (fun k => Z.min a n + k) (zrange (Z.min b n - Z.min a n))).
Proof.
  intros N A B. unfold span, slice_positions, slice_indices. cbn [fst snd sl_step sl_start sl_stop].
  replace (1 =? 0) with false by lia. replace (1 <? 0) with false by lia.
  assert (CI : forall x, 0 <= x -> clip_index n 1 x = Z.min x n).
  { intros x X. unfold clip_index. destruct (Z.ltb_spec x 0); [lia|]. destruct (Z.ltb_spec x 0); [lia|].
    replace (1 <? 0) with false by lia. destruct (Z.leb_spec n x); lia. }
  rewrite !CI by assumption. f_equal. rewrite !Z.div_1_r.
  assert (zrange (if Z.min a n <? Z.min b n then Z.min b n - Z.min a n - 1 + 1 else 0) = zrange (Z.min b n - Z.min a n)) as ->.
  { destruct (Z.ltb_spec (Z.min a n) (Z.min b n)); [f_equal; lia|]. rewrite (zrange_nonpos (_ - _)) by lia. reflexivity. }
  apply map_ext; intros; lia.
Qed.

Lemma find_pos_none x l : find_pos x l = None <-> ~ In x l.
Proof.
  induction l as [|y l IH]; cbn [find_pos]; [split; [intros _ []|reflexivity]|].
  destruct (Z.eqb_spec x y) as [->|N].
  - split; [discriminate|intros H; exfalso; apply H; left; reflexivity].
  - destruct (find_pos x l) as [k|]; cbn [option_map].
    + split; [discriminate|]. intros H. exfalso. destruct IH as [_ IH]. 
      assert (Some k = None) by (apply IH; intros J; apply H; right; exact J). discriminate.
    + split; [|reflexivity]. intros _ [Q|Q]; [congruence|]. apply IH; auto.
Qed.
Lemma find_pos_some x l k : find_pos x l = Some k -> znth l k = Some x.
Proof.
  revert k. induction l as [|y l IH]; intros k; cbn [find_pos]; [discriminate|].
  destruct (Z.eqb_spec x y) as [->|N]; [intros [= <-]; reflexivity|].
  destruct (find_pos x l) as [j|]; [|discriminate]. cbn [option_map]. intros E.
  assert (k = 1 + j) as -> by congruence. clear E. specialize (IH j eq_refl). pose proof (znth_some _ _ _ IH). rewrite znth_cons.
  destruct (Z.eqb_spec (1 + j) 0); [lia|]. replace (1 + j - 1) with j by lia. exact IH.
Qed.

Lemma zlist_eqb_spec a b : zlist_eqb a b = true <-> a = b.
Proof.
  revert b. induction a as [|x a IH]; intros [|y b]; cbn; try (split; [discriminate|discriminate]).
  - split; auto.
  - rewrite Bool.andb_true_iff, IH. split; [intros [H ->]; f_equal; lia|intros [= -> ->]; split; [lia|reflexivity]].
Qed.

Lemma gather_nat_length {A} (l : list A) ns q : gather_nat l ns = Some q -> List.length q = List.length ns.
Proof.
  revert q. induction ns as [|n ns IH]; intros q; cbn [gather_nat]; [intros [= <-]; reflexivity|].
  destruct (nth_error l n); [|discriminate]. destruct (gather_nat l ns) as [t|]; [|discriminate].
  intros [= <-]. cbn. f_equal. auto.
Qed.
Lemma gather_nat_total {A} (l : list A) ns : (forall n, In n ns -> (n < List.length l)%nat) -> exists q, gather_nat l ns = Some q.
Proof.
  induction ns as [|n ns IH]; intros H; cbn [gather_nat]; [eauto|].
  destruct (nth_error l n) as [x|] eqn:E; [|apply nth_error_None in E; specialize (H n (or_introl eq_refl)); lia].
  destruct IH as [q ->]; [intros; apply H; right; assumption|]. eauto.
Qed.
Lemma gather_nat_put {A} (l : list A) ns n x : ~ In n ns -> gather_nat (put l n x) ns = gather_nat l ns.
Proof.
  induction ns as [|m ns IH]; intros H; cbn [gather_nat]; [reflexivity|].
  rewrite nth_put_other by (intros ->; apply H; left; reflexivity). rewrite IH; [reflexivity|].
  intros J; apply H; right; exact J.
Qed.
(** A multi-index restricted to some axes is a multi-index of the restricted shape. *)
Lemma gather_nat_inb s ix ns t q : inb s ix -> gather_nat s ns = Some t -> gather_nat ix ns = Some q -> inb t q.
Proof.
  intros I. apply inb_nth in I. destruct I as [_ I]. revert t q.
  induction ns as [|n ns IH]; intros t q; cbn [gather_nat]; [intros [= <-] [= <-]; constructor|].
  destruct (nth_error s n) as [m|] eqn:E1; [|discriminate]. destruct (gather_nat s ns) as [t'|]; [|discriminate].
  destruct (nth_error ix n) as [i|] eqn:E2; [|discriminate]. destruct (gather_nat ix ns) as [q'|]; [|discriminate].
  intros [= <-] [= <-]. constructor; [apply (I n m i); assumption|]. apply IH; reflexivity.
Qed.

(** One trace moved: the samples that land in the output. *)
Lemma put_trace_spec {A} (out data : nd A) ax axs idx n size' s lo hi :
  wf_nd out -> wf_nd data -> nth_error (nd_shape data) ax = Some n -> nd_shape out = put (nd_shape data) ax size' ->
  (forall k, In k axs -> (k < List.length (nd_shape data))%nat) ->
  size' = n + hi - lo -> 0 <= size' -> s <= n + hi ->
  exists src dst b, span n (source_indices s lo hi n) = Ok src /\
    span size' (dest_indices s lo hi n size') = Ok dst /\
    put_trace out data ax axs idx src dst = Ok b /\ wf_nd b /\ nd_shape b = nd_shape out /\
    forall ix j, inb (nd_shape out) ix -> nth_error ix ax = Some j ->
      nd_get b ix =
        if (match gather_nat ix axs with Some q => zlist_eqb q idx | None => false end)
           && (0 <=? j + lo - s) && (j + lo - s <? n)
        then nd_get data (put ix ax (j + lo - s)) else nd_get out ix.
Proof.
  intros WO WD N SO HA HS S0 HB.
  assert (N0 : 0 <= n) by (destruct WD as [F _]; rewrite Forall_forall in F; apply F; eapply nth_error_In; eauto).
  assert (AL : (ax < List.length (nd_shape data))%nat) by (apply nth_error_Some; congruence).
  set (a := Z.max 0 (lo - s)). set (b0 := Z.min n (n - s + hi)). set (d0 := Z.max 0 (s - lo)).
  assert (SI : source_indices s lo hi n = (a, b0)).
  { unfold source_indices, a, b0. cbv zeta. f_equal; [destruct (Z.ltb_spec (- s + lo) 0); lia|destruct (Z.ltb_spec n (n - s + hi)); lia]. }
  assert (DI : dest_indices s lo hi n size' = (d0, Z.min size' (d0 + Z.max 0 (b0 - Z.min a n)))).
  { unfold dest_indices, clip, a, b0, d0. cbv zeta. f_equal. lia. }
  rewrite SI, DI, !span_spec by (unfold a, b0, d0; lia).
  set (len := Z.max 0 (b0 - Z.min a n)).
  assert (SRC : map (fun k => Z.min a n + k) (zrange (Z.min b0 n - Z.min a n)) = map (fun k => a + k) (zrange len)).
  { unfold len. destruct (Z_le_gt_dec b0 (Z.min a n)).
    - rewrite (zrange_nonpos (Z.min b0 n - _)), (zrange_nonpos (Z.max _ _)) by (unfold b0 in *; lia). reflexivity.
    - assert (Z.min a n = a) as -> by lia. f_equal. f_equal. unfold b0 in *. lia. }
  assert (FIT : 0 < len -> d0 + len <= size') by (unfold len, d0, a, b0; lia).
  assert (DST : map (fun k => Z.min d0 size' + k) (zrange (Z.min (Z.min size' (d0 + len)) size' - Z.min d0 size'))
                = map (fun k => d0 + k) (zrange len)).
  { destruct (Z.eq_dec len 0) as [E|E].
    - rewrite E. rewrite !zrange_nonpos by lia. reflexivity.
    - assert (0 < len) by (unfold len in *; lia). specialize (FIT H). assert (Z.min d0 size' = d0) as -> by lia. f_equal. f_equal. lia. }
  rewrite SRC, DST.
  set (src := map (fun k => a + k) (zrange len)). set (dst := map (fun k => d0 + k) (zrange len)).
  assert (Ls : zlen src = len) by (unfold src; rewrite zlen_map, zlen_zrange; unfold len; lia).
  assert (Ld : zlen dst = len) by (unfold dst; rewrite zlen_map, zlen_zrange; unfold len; lia).
  (* the sample at output position j *)
  assert (HIT : forall j, 0 <= j < size' ->
    match find_pos j dst with
    | Some k => exists i, znth src (if zlen src =? 1 then 0 else k) = Some i /\ i = j + lo - s /\ 0 <= i < n
    | None => ~ 0 <= j + lo - s < n
    end).
  { intros j J. destruct (find_pos j dst) as [k|] eqn:F.
    - apply find_pos_some in F. pose proof (znth_some _ _ _ F) as KB. unfold dst in F. rewrite znth_map, znth_zrange in F.
      rewrite Ld in KB. replace ((0 <=? k) && (k <? len)) with true in F by lia. cbn [option_map] in F. injection F as F.
      exists (a + k). rewrite Ls.
      assert ((if len =? 1 then 0 else k) = k) as -> by (destruct (Z.eqb_spec len 1); lia).
      unfold src. rewrite znth_map, znth_zrange. replace ((0 <=? k) && (k <? len)) with true by lia.
      split; [reflexivity|]. unfold len, a, b0, d0 in *. lia.
    - apply find_pos_none in F. intros B. apply F. unfold dst. apply in_map_iff. exists (j - d0). split; [lia|].
      apply in_zrange. unfold len, a, b0, d0 in *. lia. }
  set (g := fun ix : list Z =>
      match gather_nat ix axs, nth_error ix ax with
      | Some q, Some j =>
          if zlist_eqb q idx then
            match find_pos j dst with
            | Some k => match znth src (if zlen src =? 1 then 0 else k) with
                        | Some i => nd_get data (put ix ax i)
                        | None => None end
            | None => nd_get out ix
            end
          else nd_get out ix
      | _, _ => None
      end).
  assert (G : forall ix, inb (nd_shape out) ix -> exists j, nth_error ix ax = Some j /\ 0 <= j < size' /\
     (exists x, g ix = Some x) /\
     g ix = if (match gather_nat ix axs with Some q => zlist_eqb q idx | None => false end)
              && (0 <=? j + lo - s) && (j + lo - s <? n)
           then nd_get data (put ix ax (j + lo - s)) else nd_get out ix).
  { intros ix IB. pose proof IB as IB'. rewrite SO in IB'.
    pose proof (inb_length _ _ IB') as LL. rewrite put_length in LL.
    destruct (nth_error ix ax) as [j|] eqn:Ej; [|apply nth_error_None in Ej; lia].
    destruct (gather_nat_total ix axs) as [q Q]; [intros k Hk; rewrite LL; apply HA; exact Hk|].
    assert (JB : 0 <= j < size').
    { apply inb_nth in IB'. destruct IB' as [_ IB']. apply (IB' ax); [apply nth_put_same; exact AL|exact Ej]. }
    exists j. split; [reflexivity|]. split; [exact JB|].
    destruct (nd_get_total out ix WO IB) as [y Y].
    unfold g. rewrite Ej, Q. specialize (HIT j JB). destruct (zlist_eqb q idx).
    - destruct (find_pos j dst) as [k|].
      + destruct HIT as (i & -> & -> & B). cbn [andb]. replace (0 <=? j + lo - s) with true by lia.
        replace (j + lo - s <? n) with true by lia. split; [|reflexivity].
        apply nd_get_total; [exact WD|]. apply (inb_put _ _ _ _ _ IB' n N B).
      + cbn [andb]. destruct ((0 <=? j + lo - s) && (j + lo - s <? n)) eqn:E; [lia|]. split; [eauto|reflexivity].
    - cbn [andb]. split; [eauto|reflexivity]. }
  destruct (nd_build_total (nd_shape out) g) as [b B].
  { apply WO. } { intros ix IB. destruct (G ix IB) as (j & _ & _ & X & _). exact X. }
  exists src, dst, b. do 2 (split; [reflexivity|]). split.
  { unfold put_trace. rewrite Ls, Ld, Z.eqb_refl. cbn [orb negb]. fold g. rewrite <- Ls. 
    change (match nd_build (nd_shape out) g with Some b => Ok b | None => Err IndexError end = Ok b). rewrite B. reflexivity. }
  destruct (nd_build_spec _ _ _ (proj1 WO) B) as (SB & WB & GB). split; [exact WB|]. split; [exact SB|].
  intros ix j IB Ej. destruct (GB ix IB) as (x & Gx & ->). destruct (G ix IB) as (j' & Ej' & _ & _ & E).
  rewrite Ej in Ej'. injection Ej' as <-. rewrite <- E. symmetry. exact Gx.
Qed.

Definition move_step {A} (data : nd A) (shifts : nd Z) (ax : nat) (axs : list nat) (n lo hi size' : Z)
  (acc : result (nd A)) (idx : list Z) : result (nd A) :=
  do o <- acc;
  match nd_get shifts idx with
  | None => Err IndexError
  | Some s =>
      do src <- span n (source_indices s lo hi n);
      do dst <- span size' (dest_indices s lo hi n size');
      put_trace o data ax axs idx src dst
  end.

Lemma move_fold {A} (data : nd A) shifts ax axs n lo hi size' L : wf_nd data ->
  nth_error (nd_shape data) ax = Some n -> (forall k, In k axs -> (k < List.length (nd_shape data))%nat) ->
  size' = n + hi - lo -> 0 <= size' ->
  (forall idx, In idx L -> exists s, nd_get shifts idx = Some s /\ s <= n + hi) ->
  forall out, wf_nd out -> nd_shape out = put (nd_shape data) ax size' ->
  exists b, fold_left (move_step data shifts ax axs n lo hi size') L (Ok out) = Ok b /\
    wf_nd b /\ nd_shape b = nd_shape out /\
    forall ix j q, inb (nd_shape out) ix -> nth_error ix ax = Some j -> gather_nat ix axs = Some q ->
      (~ In q L -> nd_get b ix = nd_get out ix) /\
      (In q L -> forall s, nd_get shifts q = Some s ->
        nd_get b ix = if (0 <=? j + lo - s) && (j + lo - s <? n)
                      then nd_get data (put ix ax (j + lo - s)) else nd_get out ix).
Proof.
  intros WD N HA HS S0. induction L as [|idx L IH]; intros HL out WO SO.
  - exists out. split; [reflexivity|]. split; [exact WO|]. split; [reflexivity|]. intros ix j q _ _ _.
    split; [reflexivity|intros []].
  - destruct (HL idx (or_introl eq_refl)) as (s & Es & Bs).
    destruct (put_trace_spec out data ax axs idx n size' s lo hi WO WD N SO HA HS S0 Bs)
      as (src & dst & o1 & E1 & E2 & E3 & W1 & S1 & G1).
    destruct (IH (fun i J => HL i (or_intror J)) o1 W1 (eq_trans S1 SO)) as (b & Eb & Wb & Sb & Gb).
    exists b. cbn [fold_left]. split.
    { unfold move_step at 2. cbn [bind]. rewrite Es, E1. cbn [bind]. rewrite E2. cbn [bind]. rewrite E3. exact Eb. }
    split; [exact Wb|]. split; [congruence|]. intros ix j q IB Ej Q.
    destruct (Gb ix j q) as [GN GI]; [rewrite S1; exact IB|exact Ej|exact Q|].
    specialize (G1 ix j IB Ej). rewrite Q in G1.
    destruct (zlist_eqb q idx) eqn:Z.
    + apply zlist_eqb_spec in Z. subst idx. cbn [andb] in G1. split; [intros H; exfalso; apply H; left; reflexivity|].
      intros _ s' Es'. rewrite Es in Es'. injection Es' as <-.
      destruct (in_dec (list_eq_dec Z.eq_dec) q L) as [J|J].
      * rewrite (GI J s Es). destruct ((0 <=? j + lo - s) && (j + lo - s <? n)) eqn:C; [reflexivity|].
        exact G1.
      * rewrite (GN J). exact G1.
    + cbn [andb] in G1. split.
      * intros H. rewrite GN by (intros J; apply H; right; exact J). exact G1.
      * intros [->|J] s' Es'.
        { rewrite (proj2 (zlist_eqb_spec q q) eq_refl) in Z. discriminate. }
        rewrite (GI J s' Es'), G1. reflexivity.
Qed.

Lemma apply_shifts_ok {A} (data : nd A) shifts ax axs n lo hi fill : wf_nd data -> wf_nd shifts ->
  nth_error (nd_shape data) ax = Some n -> gather_nat (nd_shape data) axs = Some (nd_shape shifts) -> ~ In ax axs ->
  0 <= n + hi - lo -> (forall s, In s (nd_flat shifts) -> s <= n + hi) ->
  exists b, apply_shifts data shifts ax axs n lo hi fill = Ok b /\ wf_nd b /\
    nd_shape b = put (nd_shape data) ax (n + hi - lo) /\
    forall ix j q, inb (nd_shape b) ix -> nth_error ix ax = Some j -> gather_nat ix axs = Some q ->
      exists s, nd_get shifts q = Some s /\
        nd_get b ix = if (0 <=? j + lo - s) && (j + lo - s <? n)
                      then nd_get data (put ix ax (j + lo - s)) else Some fill.
Proof.
  intros WD WS N GA NA S0 HB. unfold apply_shifts. cbv zeta. replace (n + hi - lo <? 0) with false by lia.
  assert (PN : Forall (fun k => 0 <= k) (put (nd_shape data) ax (n + hi - lo))) by (apply put_nonneg; [apply WD|exact S0]).
  destruct (nd_build_total (put (nd_shape data) ax (n + hi - lo)) (fun _ => Some fill) PN) as [out O]; [eauto|].
  rewrite O. destruct (nd_build_spec _ _ _ PN O) as (SO & WO & GO).
  rewrite (gather_nat_length _ _ _ GA), Nat.eqb_refl. cbn [negb].
  assert (HA : forall k, In k axs -> (k < List.length (nd_shape data))%nat).
  { clear - GA. revert GA. generalize (nd_shape shifts). induction axs as [|a axs IH]; intros t H k; [intros []|].
    cbn [gather_nat] in H. destruct (nth_error (nd_shape data) a) eqn:E; [|discriminate].
    destruct (gather_nat (nd_shape data) axs) as [t'|]; [|discriminate].
    intros [<-|J]; [apply nth_error_Some; congruence|]. apply (IH _ eq_refl k J). }
  destruct (move_fold data shifts ax axs n lo hi (n + hi - lo) (all_ix (nd_shape shifts)) WD N HA eq_refl S0) with (out := out)
    as (b & Eb & Wb & Sb & Gb); [|exact WO|exact SO|].
  { intros idx J. apply in_all_ix in J; [|apply WS]. destruct (nd_get_total shifts idx WS J) as [s Es]. exists s.
    split; [exact Es|]. apply HB. unfold nd_get in Es. destruct (ravel (nd_shape shifts) idx); [|discriminate].
    eapply znth_in; eauto. }
  exists b. split; [exact Eb|]. split; [exact Wb|]. split; [congruence|].
  intros ix j q IB Ej Q. rewrite Sb in IB.
  assert (IQ : inb (nd_shape shifts) q).
  { rewrite SO in IB. eapply gather_nat_inb; [exact IB| |exact Q]. rewrite gather_nat_put by exact NA. exact GA. }
  destruct (nd_get_total shifts q WS IQ) as [s Es]. exists s. split; [exact Es|].
  destruct (Gb ix j q IB Ej Q) as [_ G]. rewrite (G (proj2 (in_all_ix _ _ (proj1 WS)) IQ) s Es).
  destruct ((0 <=? j + lo - s) && (j + lo - s <? n)); [reflexivity|].
  rewrite SO in IB. destruct (GO ix IB) as (x & [= <-] & ->). reflexivity.
Qed.
