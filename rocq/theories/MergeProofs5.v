(** Lemmas behind MergeProps.v: what merging gives and when it fails. *)
From Verif Require Import Base BaseFacts CoordModel CoordSpec CoordProofs CoordProofs2 CoordProofs3 CoordProofs5 NdModel NdSpec NdProofs
  FrameModel FrameProofs5 ChunkModel CmModel CmSpec CmProofs CmProofs2 CmProofs3 CmProofs4 CmProofs17 FourierProofs2 MergeModel MergeSpec MergeProofs
  MergeProofs2 MergeProofs3 MergeProofs4.
From Coq Require Import Strings.String ZifyBool Sorting.Permutation Sorting.Sorted.
Ltac Zify.zify_post_hook ::= Z.div_mod_to_equations.
Local Open Scope Z_scope.
Local Open Scope list_scope.

Lemma recf_array k v : exists c, recf (M1 (CArr k v)) = M1 c /\ represents c v /\ wf_coord c.
Proof.
  destruct (get_coord_represents k v) as (c & E & R & W). exists c. unfold recf. cbn [recoord]. rewrite E. auto.
Qed.
Lemma carried_kept m : wf_mcoord m -> carried m (recf m) (full (m_shape m)).
Proof. intros W. apply carried_recf; [apply wf_okm, W|apply carried_refl, W]. Qed.

Lemma alone_leading D dim k cms : joinable D dim k cms -> alone dim cms -> leading dim cms.
Proof.
  intros J A n ds S I. pose proof (A n ds S I) as ->.
  pose proof (shared_fun _ _ _ _ (jn_some _ _ _ _ J) S (dims_shared D dim k cms J dim (jn_dim _ _ _ _ J))) as ->.
  exists []. reflexivity.
Qed.

Lemma merge_as tol drop D dim k cms cs' : joinable D dim k cms -> alone dim cms -> agreeable drop D dim cms ->
  snap_coords tol (map (dimc dim) (in_order dim cms)) = Ok cs' -> cs' <> [] -> (forall c, In c cs' -> c_kind c = k) ->
  exists first rest out, in_order dim cms = first :: rest /\ merge_cms tol drop dim cms = Ok out /\
    merged_as D dim cms first (List.concat (map c_ints cs')) out.
Proof.
  intros J A G SN NE KK.
  destruct (merge_core tol drop D dim k cms cs' J (alone_leading D dim k cms J A) G SN NE KK)
    as (first & rest & out & IO & FI & E & W & Dm & M & O & N).
  pose proof (dims_shared D dim k cms J dim (jn_dim _ _ _ _ J)) as SD.
  exists first, rest, out. split; [exact IO|]. split; [exact E|].
  split; [exact W|]. split; [exact Dm|]. split; [|split].
  - destruct (M dim [dim] SD (or_introl eq_refl)) as [C _]. destruct (recf_array k (List.concat (map c_ints cs'))) as (c & R & Rp & _).
    exists c. rewrite C, R. auto.
  - intros n ds m S Nn Em. assert (ND : ~ In dim ds) by (intros I; apply Nn; apply (A n ds S I)).
    destruct (O n ds m S ND Em) as [O1 O2]. split; [|exact O2]. intros H. destruct (O1 H) as [C D']. split; [exact D'|].
    exists (recf m). split; [exact C|]. apply carried_kept. apply (wf_vals _ (jn_wf _ _ _ _ J _ FI) _ _ Em).
  - exact N.
Qed.

(** ** Without a tolerance *)
Lemma dimc_values D dim k cms l : joinable D dim k cms -> (forall cm, In cm l -> In cm cms) ->
  map c_ints (map (dimc dim) l) = map (values_of dim) l /\ (forall c, In c (map (dimc dim) l) -> c_kind c = k).
Proof.
  intros J H. split.
  - rewrite map_map. apply map_ext_in. intros cm I. destruct (dim_min_ok D dim k cms cm J (H _ I)) as (_ & _ & X & _). exact X.
  - intros c I. apply in_map_iff in I as (cm & <- & I). destruct (dim_min_ok D dim k cms cm J (H _ I)) as (_ & _ & _ & X & _). exact X.
Qed.
Lemma in_order_some dim cms : cms <> [] -> in_order dim cms <> [].
Proof.
  intros N E. destruct (in_order_stable dim cms) as (P & _). rewrite E in P. apply Permutation_nil in P. contradiction.
Qed.

Lemma merge_ok drop D dim k cms : joinable D dim k cms -> alone dim cms -> agreeable drop D dim cms ->
  exists first rest out, stable_by (start_of dim) cms (first :: rest) /\ merge_cms None drop dim cms = Ok out /\
    merged_as D dim cms first (List.concat (map (values_of dim) (first :: rest))) out.
Proof.
  intros J A G. destruct (dimc_values D dim k cms (in_order dim cms) J) as [V K]; [intros cm; apply in_order_In|].
  destruct (merge_as None drop D dim k cms (map (dimc dim) (in_order dim cms)) J A G) as (first & rest & out & IO & E & M).
  - reflexivity.
  - intros E. apply map_eq_nil in E. revert E. apply in_order_some, (jn_some _ _ _ _ J).
  - exact K.
  - exists first, rest, out. rewrite V, IO in M. split; [rewrite <- IO; apply in_order_stable|]. auto.
Qed.

(** ** Failures *)
Lemma map_result_err {A B} (f : A -> result B) e l : (forall x, In x l -> f x = Err e \/ exists y, f x = Ok y) ->
  (exists x, In x l /\ f x = Err e) -> map_result f l = Err e.
Proof.
  induction l as [|x l IH]; intros H [y [I E]]; [destruct I|]. cbn [map_result].
  destruct (H x (or_introl eq_refl)) as [Q|[z Q]]; rewrite Q; [reflexivity|]. cbn [bind].
  destruct I as [->|I]; [congruence|]. rewrite IH; [reflexivity|intros; apply H; right; assumption|eauto].
Qed.
Lemma merge_conflict tol drop D dim k cms n ds : joinable D dim k cms -> shared cms n ds -> ~ In dim ds ->
  drop = false \/ In n D -> (forall f, In f cms -> ~ agrees_with_all cms f n) ->
  merge_cms tol drop dim cms = Err CoordMergeError.
Proof.
  intros J S N Dr NA. destruct (merge_setup tol drop D dim k cms J) as (first & rest & first' & rest' & IO & T & EQ).
  assert (TF : trimmed cms first first') by (inversion T; assumption).
  assert (INS : forall cm, In cm (first :: rest) <-> In cm cms) by (intros cm; rewrite <- IO; apply in_order_In).
  assert (FI : In first cms) by (apply INS; left; reflexivity).
  rewrite EQ. assert (map_result (non_merge drop first' (first' :: rest')) (others dim first') = Err CoordMergeError) as ->; [|reflexivity].
  apply map_result_err.
  - intros x I. apply (others_In D dim k cms J first' first TF) in I as (dx & f & Sx & Nx & Ex).
    pose proof (agreeb_spec D dim k cms J (first :: rest) (first' :: rest') T INS first x dx f Sx Ex) as Q.
    destruct (agreeb (first' :: rest') f x).
    + right. exists (keepf first' (first' :: rest') x).
      apply (non_merge_ok drop D dim k cms J (first :: rest) first' (first' :: rest') T INS first TF x dx f Sx Ex).
      intros _. apply Q. reflexivity.
    + assert (NQ : ~ agrees_with_all cms first x) by (intros H; apply Q in H; discriminate).
      destruct (drop) eqn:ED; [destruct (in_dec string_dec x D) as [ID|ND]|].
      * left. apply (non_merge_err true D dim k cms J (first :: rest) first' (first' :: rest') T INS first TF FI x dx f Sx Ex NQ). auto.
      * right. exists (keepf first' (first' :: rest') x).
        apply (non_merge_ok true D dim k cms J (first :: rest) first' (first' :: rest') T INS first TF x dx f Sx Ex).
        intros [H|H]; [discriminate|contradiction].
      * left. apply (non_merge_err false D dim k cms J (first :: rest) first' (first' :: rest') T INS first TF FI x dx f Sx Ex NQ). auto.
  - destruct (con_coord _ (wf_con _ (jn_wf _ _ _ _ J _ FI)) n ds (S _ FI)) as (m & Em & _). exists n. split.
    + apply (others_In D dim k cms J first' first TF). eauto 6.
    + apply (non_merge_err drop D dim k cms J (first :: rest) first' (first' :: rest') T INS first TF FI n ds m S Em (NA _ FI) Dr).
Qed.
Lemma merge_dims_differ tol drop dim cms c c' : In c cms -> In c' cms -> cm_dims c <> cm_dims c' ->
  merge_cms tol drop dim cms = Err CoordMergeError.
Proof. intros I I' N. unfold merge_cms. rewrite (common_dims_err c c' cms I I' N). reflexivity. Qed.

(** ** With a tolerance, for ranges *)
Fixpoint lay (s a : Z) (l : list coord) : list coord :=
  match l with
  | [] => []
  | c :: t => (match c with CRange r => CRange (mkRange (r_kind r) a (a + s * r_len r) s (r_len r)) | _ => c end)
              :: lay s (a + c_len c * s) t
  end.
Lemma r_min_up r : wf_range r -> 0 < r_step r -> r_min r = r_start r /\ r_max r + r_step r = r_stop r.
Proof. intros (_ & Hn & Hs) P. unfold r_min, r_max. rewrite Hs. nia. Qed.
Lemma start_at_range r a : wf_range r -> 0 < r_step r ->
  start_at (CRange r) a = Ok (CRange (mkRange (r_kind r) a (a + r_step r * r_len r) (r_step r) (r_len r))).
Proof.
  intros W P. pose proof W as (_ & Hn & Hs). cbn [start_at]. unfold r_update_limits. cbn [bind]. unfold r_new.
  replace (r_stop r + (a - r_start r)) with (a + r_step r * r_len r) by lia.
  rewrite mk_range_exact by lia. reflexivity.
Qed.

Lemma snap_next_ok num den s : 0 < s -> forall l prev, 0 <= num -> 0 < den ->
  (exists p, prev = CRange p /\ wf_range p /\ r_step p = s) ->
  (forall c, In c l -> exists r, c = CRange r /\ wf_range r /\ r_step r = s) ->
  forall a, (match prev with CRange p => r_stop p | _ => 0 end) = a ->
  (close_starts num den s a (map (fun c => match c with CRange r => (r_start r, r_len r) | _ => (0, 0) end) l) ->
     snap_next num den prev l = Ok (lay s a l)) /\
  (~ close_starts num den s a (map (fun c => match c with CRange r => (r_start r, r_len r) | _ => (0, 0) end) l) ->
     snap_next num den prev l = Err CoordMergeError).
Proof.
  intros P l. induction l as [|c l IH]; intros prev Nn Dn (p & -> & Wp & Sp) H a Ha.
  - cbn. split; [reflexivity|tauto].
  - destruct (H c (or_introl eq_refl)) as (r & -> & Wr & Sr).
    cbn [map close_starts]. cbn [snap_next step_of c_max c_min].
    destruct (r_min_up p Wp) as [_ Mp]; [lia|]. destruct (r_min_up r Wr) as [Mr _]; [lia|].
    rewrite Mp, Mr, Ha. rewrite Sp.
    set (r' := mkRange (r_kind r) a (a + s * r_len r) s (r_len r)).
    assert (W' : wf_range r').
    { unfold r', wf_range. cbn. destruct Wr as (_ & X & _). split; [lia|]. split; [lia|lia]. }
    assert (Same : a = r_start r -> CRange r = CRange r').
    { intros Q. destruct Wr as (_ & _ & X). unfold r'. destruct r as [kr st sp sr nr]. cbn in *. f_equal. f_equal; lia. }
    destruct (Z_le_gt_dec (den * Z.abs (a - r_start r)) (num * s)) as [Q|Q].
    + assert (E : (if (0 <? Z.abs (a - r_start r)) && (den * Z.abs (a - r_start r) <=? num * s)
                   then start_at (CRange r) a
                   else if num * s <? den * Z.abs (a - r_start r) then Err CoordMergeError else Ok (CRange r)) = Ok (CRange r')).
      { destruct (0 <? Z.abs (a - r_start r)) eqn:Z0; cbn [andb].
        - replace (den * Z.abs (a - r_start r) <=? num * s) with true by lia. rewrite start_at_range by (auto; lia).
          rewrite Sr. reflexivity.
        - replace (num * s <? den * Z.abs (a - r_start r)) with false by lia. f_equal. apply Same. lia. }
      rewrite E. cbn [bind].
      destruct (IH (CRange r') Nn Dn) with (a := a + r_len r * s) as [I1 I2].
      * exists r'. auto.
      * intros c' I. apply H. right; exact I.
      * unfold r'. cbn. lia.
      * split.
        -- intros [_ C]. rewrite (I1 C). cbn [bind lay c_len]. reflexivity.
        -- intros C. rewrite I2; [reflexivity|]. intros C'. apply C. split; [exact Q|exact C'].
    + assert (E : (if (0 <? Z.abs (a - r_start r)) && (den * Z.abs (a - r_start r) <=? num * s)
                   then start_at (CRange r) a
                   else if num * s <? den * Z.abs (a - r_start r) then Err CoordMergeError else Ok (CRange r)) = Err CoordMergeError).
      { replace (den * Z.abs (a - r_start r) <=? num * s) with false by lia. rewrite andb_false_r.
        replace (num * s <? den * Z.abs (a - r_start r)) with true by lia. reflexivity. }
      rewrite E. cbn [bind]. split; [intros [C _]; lia|reflexivity].
Qed.
Lemma progression_app a s m n : 0 <= m -> 0 <= n -> progression a s m ++ progression (a + m * s) s n = progression a s (m + n).
Proof.
  intros Hm Hn. apply znth_ext_len; [rewrite zlen_app, !zlen_progression; lia|]. intros i H.
  rewrite zlen_app, !zlen_progression in H. rewrite znth_app, zlen_progression, Z.max_r by lia.
  destruct (Z.ltb_spec i m); rewrite !znth_progression by lia; f_equal; lia.
Qed.
Lemma lay_values s : 0 < s -> forall l, (forall c, In c l -> exists r, c = CRange r /\ wf_range r /\ r_step r = s) ->
  forall a, List.concat (map c_ints (lay s a l)) = progression a s (total (map c_len l)) /\ 0 <= total (map c_len l).
Proof.
  intros P l. induction l as [|c l IH]; intros H a; [split; [reflexivity|cbn; lia]|].
  destruct (H c (or_introl eq_refl)) as (r & -> & (_ & Wr & _) & Sr).
  destruct (IH (fun c' I => H c' (or_intror I)) (a + c_len (CRange r) * s)) as [E N].
  cbn [lay map List.concat total fold_right]. fold (total (map c_len l)). rewrite E. cbn [c_len] in *.
  cbn [c_ints]. rewrite r_values_prog by (unfold wf_range; cbn; lia). cbn [r_start r_step r_len].
  split; [apply progression_app; lia|lia].
Qed.
Lemma range_along D dim k cms s cm : joinable D dim k cms -> ranges_along dim s cms -> 0 < s -> In cm cms ->
  exists r, dimc dim cm = CRange r /\ wf_range r /\ r_step r = s /\ r_kind r = k /\ start_of dim cm = r_start r /\
    zlen (values_of dim cm) = r_len r.
Proof.
  intros J R P I. destruct (R _ I) as (r & E & Sr). destruct (dim_min_ok D dim k cms cm J I) as (M & _ & V & K & _ & W & _).
  assert (Q : dimc dim cm = CRange r) by (unfold dimc; rewrite E; reflexivity). rewrite Q in *. exists r.
  cbn [wf_coord c_ints c_kind] in *. repeat (split; [solve [auto]|]). split.
  - unfold dim_min in M. rewrite E in M. cbn [c_min] in M. destruct (r_min_up r W) as [X _]; [lia|]. congruence.
  - rewrite <- V, r_values_prog, zlen_progression by exact W. destruct W as (_ & W & _). lia.
Qed.
Lemma spread_progression (k : kind) a s n : 0 < s -> 0 <= n -> spread (progression a s n).
Proof.
  intros P N. destruct (Z.eq_dec n 0) as [->|N0].
  - intros m2 _ d d' (i & x & y & X & _).
    assert (Q : znth (progression a s 0) i = None) by (apply znth_none; rewrite zlen_progression; lia). congruence.
  - assert (W : wf_range (mkRange k a (a + n * s) s n)) by (unfold wf_range; cbn; lia).
    pose proof (spread_range _ W) as Q. rewrite r_values_prog in Q by exact W. exact Q.
Qed.

Lemma merge_snap_err tol drop D dim k cms e : joinable D dim k cms -> agreeable drop D dim cms ->
  snap_coords tol (map (dimc dim) (in_order dim cms)) = Err e -> merge_cms tol drop dim cms = Err e.
Proof.
  intros J A SN. destruct (merge_setup tol drop D dim k cms J) as (first & rest & first' & rest' & IO & T & EQ).
  assert (TF : trimmed cms first first') by (inversion T; assumption).
  assert (INS : forall cm, In cm (first :: rest) <-> In cm cms) by (intros cm; rewrite <- IO; apply in_order_In).
  assert (FI : In first cms) by (apply INS; left; reflexivity).
  pose proof (dims_shared D dim k cms J dim (jn_dim _ _ _ _ J)) as SD.
  assert (KEPT : map_result (non_merge drop first' (first' :: rest')) (others dim first') =
     Ok (map (keepf first' (first' :: rest')) (others dim first'))).
  { apply map_result_map. intros n I. apply (others_In D dim k cms J first' first TF) in I as (ds & f & S & N & E).
    eapply (non_merge_ok drop D dim k cms J (first :: rest) first' (first' :: rest') T INS first TF n ds f S E).
    intros Dr. apply (A n ds first S N Dr FI). }
  assert (DC : map_result (dim_coord dim) (first' :: rest') = Ok (map (dimc dim) (first :: rest))).
  { rewrite <- (Forall2_trimmed_dimc dim cms _ _ SD T). apply map_result_map. intros cm' I.
    destruct (srt_back cms (first :: rest) (first' :: rest') T INS cm' I) as (cm & Ic & Tc).
    destruct (dim_min_ok D dim k cms cm J Ic) as (_ & _ & _ & _ & X & _). unfold dim_coord, dimc.
    destruct (tr_keep _ _ _ Tc dim _ SD) as [-> _]. rewrite X. reflexivity. }
  assert (BAD : forall n, In n (to_merge dim first') -> merged_coord tol dim first' (first' :: rest') n = Err e).
  { intros n I. apply (to_merge_In D dim k cms J first' first TF) in I as (ds & S & I).
    unfold merged_coord. rewrite DC. cbn [bind]. destruct (tr_keep _ _ _ TF n ds S) as [_ ->].
    destruct (tr_keep _ _ _ TF dim _ SD) as [_ ->]. rewrite IO in SN. rewrite SN. reflexivity. }
  rewrite EQ, KEPT. cbn [bind].
  assert (MERGED : map_result (merged_coord tol dim first' (first' :: rest')) (to_merge dim first') = Err e).
  { apply map_result_err; [intros n I; left; apply BAD, I|]. exists dim.
    assert (Q : In dim (to_merge dim first')).
    { apply (to_merge_In D dim k cms J first' first TF). exists [dim]. split; [exact SD|left; reflexivity]. }
    split; [exact Q|apply BAD, Q]. }
  rewrite MERGED. reflexivity.
Qed.

Lemma merge_snap num den drop D dim k cms s : 0 <= num -> 0 < den -> 0 < s ->
  joinable D dim k cms -> alone dim cms -> agreeable drop D dim cms -> ranges_along dim s cms ->
  exists first rest, stable_by (start_of dim) cms (first :: rest) /\
    let spans := map (span_of dim) (first :: rest) in
    (close_starts num den s (start_of dim first) spans ->
       exists out c, merge_cms (Some (num, den)) drop dim cms = Ok out /\
         assoc dim (cm_coords out) = Some (M1 c) /\
         c_values c = map Some (progression (start_of dim first) s (total (map snd spans))) /\
         merged_as D dim cms first (progression (start_of dim first) s (total (map snd spans))) out) /\
    (~ close_starts num den s (start_of dim first) spans ->
       merge_cms (Some (num, den)) drop dim cms = Err CoordMergeError).
Proof.
  intros Nn Dn P J A G R. destruct (in_order dim cms) as [|first rest] eqn:IO.
  { exfalso. revert IO. apply in_order_some, (jn_some _ _ _ _ J). }
  exists first, rest. split; [rewrite <- IO; apply in_order_stable|]. cbv zeta.
  assert (RR : forall c, In c (map (dimc dim) (first :: rest)) -> exists r, c = CRange r /\ wf_range r /\ r_step r = s).
  { intros c I. apply in_map_iff in I as (cm & <- & I). rewrite <- IO in I. apply in_order_In in I.
    destruct (range_along D dim k cms s cm J R P I) as (r & ? & ? & ? & _). eauto. }
  assert (SP : map (span_of dim) (first :: rest) =
    map (fun c => match c with CRange r => (r_start r, r_len r) | _ => (0, 0) end) (map (dimc dim) (first :: rest))).
  { rewrite map_map. apply map_ext_in. intros cm I. rewrite <- IO in I. apply in_order_In in I.
    destruct (range_along D dim k cms s cm J R P I) as (r & Q & _ & _ & _ & S1 & S2). unfold span_of. rewrite Q, S1, S2. reflexivity. }
  rewrite SP. assert (FI : In first cms) by (apply (in_order_In dim); rewrite IO; left; reflexivity).
  destruct (range_along D dim k cms s first J R P FI) as (r & Qf & Wr & Sr & Kr & S1 & S2). rewrite S1.
  cbn [map close_starts]. rewrite Qf.
  destruct (snap_next_ok num den s P (map (dimc dim) rest) (CRange r) Nn Dn) with (a := r_start r + r_len r * s) as [O1 O2].
  { exists r. auto. } { intros c I. apply RR. right. exact I. } { destruct Wr as (_ & _ & W). rewrite W, Sr. reflexivity. }
  split.
  - intros [_ C]. specialize (O1 C).
    assert (LY : CRange r :: lay s (r_start r + r_len r * s) (map (dimc dim) rest) = lay s (r_start r) (map (dimc dim) (first :: rest))).
    { cbn [map lay]. rewrite Qf. cbn [c_len]. f_equal. f_equal. destruct Wr as (_ & _ & W). destruct r as [kr st sp sr nr]. cbn in *. f_equal; lia. }
    assert (SN : snap_coords (Some (num, den)) (map (dimc dim) (in_order dim cms)) = Ok (lay s (r_start r) (map (dimc dim) (first :: rest)))).
    { rewrite IO. cbn [map snap_coords]. rewrite Qf, O1. cbn [bind]. f_equal. rewrite LY. cbn [map]. rewrite Qf. reflexivity. }
    destruct (merge_as _ drop D dim k cms _ J A G SN) as (f' & r' & out & IO' & E & M).
    { rewrite <- LY. discriminate. }
    { assert (KK : forall c, In c (map (dimc dim) (first :: rest)) -> c_kind c = k).
      { rewrite <- IO. apply (dimc_values D dim k cms (in_order dim cms) J). intros cm. apply in_order_In. }
      clear - KK. revert KK. generalize (map (dimc dim) (first :: rest)) as l. intros l. generalize (r_start r) as a.
      induction l as [|c l IH]; intros a KK c' I; [destruct I|]. destruct I as [<-|I].
      - specialize (KK c (or_introl eq_refl)). destruct c; cbn in *; exact KK.
      - apply (IH (a + c_len c * s)); [intros ? ?; apply KK; right; assumption|exact I]. }
    assert (f' = first) as -> by (rewrite IO in IO'; congruence).
    destruct (lay_values s P (map (dimc dim) (first :: rest)) RR (r_start r)) as [LV LN]. rewrite LV in M.
    assert (TT : total (map snd ((r_start r, r_len r) :: map (fun c => match c with CRange r0 => (r_start r0, r_len r0) | _ => (0, 0) end) (map (dimc dim) rest)))
                 = total (map c_len (map (dimc dim) (first :: rest)))).
    { change ((r_start r, r_len r) :: map (fun c => match c with CRange r0 => (r_start r0, r_len r0) | _ => (0, 0) end) (map (dimc dim) rest))
        with (map (fun c => match c with CRange r0 => (r_start r0, r_len r0) | _ => (0, 0) end) (CRange r :: map (dimc dim) rest)).
      rewrite <- Qf. change (dimc dim first :: map (dimc dim) rest) with (map (dimc dim) (first :: rest)).
      rewrite map_map. f_equal. apply map_ext_in. intros c I. destruct (RR c I) as (rc & -> & _). reflexivity. }
    match goal with |- context [progression (r_start r) s ?t] =>
      replace t with (total (map c_len (map (dimc dim) (first :: rest)))) by (symmetry; exact TT) end.
    pose proof M as (_ & _ & (c & Ec & (_ & _ & Rp)) & _). exists out, c. split; [exact E|]. split; [exact Ec|]. split.
    + apply Rp. apply (spread_progression k); assumption.
    + exact M.
  - intros C. assert (NC : ~ close_starts num den s (r_start r + r_len r * s)
        (map (fun c => match c with CRange r0 => (r_start r0, r_len r0) | _ => (0, 0) end) (map (dimc dim) rest))).
    { intros C'. apply C. split; [|exact C']. rewrite Z.sub_diag. cbn. lia. }
    specialize (O2 NC).
    apply (merge_snap_err (Some (num, den)) drop D dim k cms CoordMergeError J G). rewrite IO. cbn [map snap_coords].
    rewrite Qf, O2. reflexivity.
Qed.

(** Coordinates that depend on the dimension. *)
Lemma merge_associated drop D dim k cms : joinable D dim k cms -> leading dim cms -> agreeable drop D dim cms ->
  exists first rest out, stable_by (start_of dim) cms (first :: rest) /\ merge_cms None drop dim cms = Ok out /\
    forall n ds, shared cms n ds -> In dim ds -> assoc n (cm_dmap out) = Some [dim] /\
      exists c, assoc n (cm_coords out) = Some (M1 c) /\ represents c (List.concat (map (values_of dim) (first :: rest))).
Proof.
  intros J A G. destruct (dimc_values D dim k cms (in_order dim cms) J) as [V K]; [intros cm; apply in_order_In|].
  destruct (merge_core None drop D dim k cms (map (dimc dim) (in_order dim cms)) J A G) as (first & rest & out & IO & _ & E & _ & _ & M & _).
  - reflexivity.
  - intros E. apply map_eq_nil in E. revert E. apply in_order_some, (jn_some _ _ _ _ J).
  - exact K.
  - exists first, rest, out. split; [rewrite <- IO; apply in_order_stable|]. split; [exact E|]. intros n ds S I.
    destruct (M n ds S I) as [C D']. split; [exact D'|].
    destruct (recf_array k (List.concat (map c_ints (map (dimc dim) (in_order dim cms))))) as (c & R & Rp & _).
    exists c. rewrite C, R. rewrite V, IO in Rp. auto.
Qed.
