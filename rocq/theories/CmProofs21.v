(** Facts behind CmProps.v: building managers from keywords, snapping, selecting
    by two coordinates of one dimension. *)
From Verif Require Import Base BaseFacts CoordModel CoordSpec CoordProofs CoordProofs2 CoordProofs3 CoordProofs5
  NdModel NdSpec FrameModel FrameProofs5 ChunkModel
  CmModel CmSpec CmSpec2 CmProofs CmProofs2 CmProofs3 CmProofs5 CmProofs6 CmProofs9 CmProofs12 CmProofs15 CmProofs16 CmProofs20.
From Coq Require Import Strings.String ZifyBool Sorting.Permutation.
Local Open Scope Z_scope.
Local Open Scope list_scope.

(** ** Building from keywords *)
Lemma cval_given v m : cval_coord v = Ok m -> given v m.
Proof.
  destruct v as [m0|k l|k a|n]; cbn [cval_coord given].
  - destruct m0 as [[r|k l|k l|n]|k a|s]; cbn [recoord]; try (intro E; injection E as <-; reflexivity);
      destruct (get_coord_represents k l) as (c & -> & R & _); cbn [bind]; intro E; injection E as <-; eauto.
  - destruct (get_coord_represents k l) as (c & -> & R & _); cbn [bind]; intro E; injection E as <-; eauto.
  - intro E; injection E as <-; reflexivity.
  - intro E; injection E as <-; reflexivity.
Qed.

Definition entry (dims : list string) (c : list (string * mcoord)) (d : list (string * list string))
    (e : string * kval) : Prop :=
  match snd e with
  | KSimple v => exists m, given v m /\ assoc (fst e) c = Some m /\ assoc (fst e) d = Some [fst e] /\ In (fst e) dims
  | KTuple ds v => exists m, given v m /\ assoc (fst e) c = Some m /\ assoc (fst e) d = Some ds
  | _ => False
  end.

Lemma own_given_cons dims e t m ds new : coord_item dims e = Ok (m, ds, new) ->
  own_given dims (e :: t) = (if new then [fst e] else []) ++ own_given dims t.
Proof.
  unfold coord_item, own_given. destruct e as [n kv]. cbn [fst snd flat_map]. intro E.
  destruct kv as [|v|l v|x]; try discriminate E.
  - destruct (mem n dims); [|discriminate]. destruct (cval_coord v); [|discriminate]. injection E as <- <- <-. reflexivity.
  - destruct (negb (subset l dims) && _); [discriminate|]. destruct (cval_coord v); [cbn [bind] in E|discriminate].
    destruct (zlist_eqb _ _); [|discriminate]. injection E as <- <- <-. f_equal.
    destruct l as [|d [|d2 l]]; cbn [strs_eqb andb]; try reflexivity.
    + rewrite andb_true_r. destruct (String.eqb d n); cbn [andb]; reflexivity.
    + destruct (String.eqb d n); cbn [andb]; reflexivity.
Qed.

Lemma coord_items_spec dims kw : forall c d nd c' d' nd', NoDup (map fst kw) ->
  coord_items dims kw (c, d, nd) = Ok (c', d', nd') ->
  (forall e, In e kw -> entry dims c' d' e) /\
  (forall n, ~ In n (map fst kw) -> assoc n c' = assoc n c /\ assoc n d' = assoc n d) /\
  nd' = nd ++ own_given dims kw.
Proof.
  induction kw as [|e t IH]; intros c d nd c' d' nd' ND E.
  - cbn in E. injection E as <- <- <-. split; [intros e []|]. split; [auto|]. rewrite app_nil_r; reflexivity.
  - cbn [coord_items] in E. destruct (coord_item dims e) as [[[m ds] new]|] eqn:Ei; [cbn [bind] in E|discriminate].
    inversion ND as [|? ? Ne ND']; subst. destruct (IH _ _ _ _ _ _ ND' E) as (I1 & I2 & I3).
    destruct (I2 (fst e) Ne) as [J1 J2]. rewrite assoc_set_same in J1. rewrite assoc_set_same in J2.
    split; [|split].
    + intros e' [<-|Hin]; [|apply I1; exact Hin]. unfold entry. unfold coord_item in Ei.
      destruct (snd e) as [|v|l v|x]; try discriminate Ei.
      * destruct (mem (fst e) dims) eqn:Em; [|discriminate]. destruct (cval_coord v) eqn:Ev; [|discriminate].
        injection Ei as <- <- <-. eexists. split; [apply cval_given; exact Ev|]. split; [exact J1|]. split; [exact J2|].
        apply mem_In'. exact Em.
      * destruct (negb (subset l dims) && _); [discriminate|]. destruct (cval_coord v) eqn:Ev; [cbn [bind] in Ei|discriminate].
        destruct (zlist_eqb _ _); [|discriminate]. injection Ei as <- <- <-.
        eexists. split; [apply cval_given; exact Ev|]. split; assumption.
    + intros n Hn. cbn in Hn. destruct (I2 n) as [K1 K2]; [tauto|].
      rewrite assoc_set_other in K1 by (intros ->; tauto). rewrite assoc_set_other in K2 by (intros ->; tauto). auto.
    + rewrite I3, (own_given_cons _ _ _ _ _ _ Ei). destruct new; [rewrite <- app_assoc|]; reflexivity.
Qed.

Lemma simple_plain kw : simple_names kw = plain_given kw.
Proof.
  unfold simple_names, plain_given. induction kw as [|[n kv] t IH]; [reflexivity|]. cbn [filter flat_map snd fst].
  destruct kv; cbn [map]; rewrite ?IH; reflexivity.
Qed.

Lemma fold_parts dims s : forall l c d r,
  fold_left (fun acc n => do cd <- acc;
     match index_of n dims with
     | Some i => match nth_error s i with
                 | Some len => Ok (assoc_set n (M1 (CPart len)) (fst cd), assoc_set n [n] (snd cd))
                 | None => Err IndexError end
     | None => Err ValueError end) l (Ok (c, d)) = Ok r ->
  (forall n, ~ In n l -> assoc n (fst r) = assoc n c /\ assoc n (snd r) = assoc n d) /\
  (forall n, In n l -> exists i len, index_of n dims = Some i /\ nth_error s i = Some len /\
     assoc n (fst r) = Some (M1 (CPart len)) /\ assoc n (snd r) = Some [n]).
Proof.
  induction l as [|x t IH]; intros c d r E.
  - cbn in E. injection E as <-. split; [auto|intros n []].
  - cbn [fold_left bind fst snd] in E.
    assert (Bad : forall ex, fold_left (fun acc n => do cd <- acc;
     match index_of n dims with
     | Some i => match nth_error s i with
                 | Some len => Ok (assoc_set n (M1 (CPart len)) (fst cd), assoc_set n [n] (snd cd))
                 | None => Err IndexError end
     | None => Err ValueError end) t (Err ex) = Ok r -> False).
    { clear. intro ex. induction t as [|y t IH]; [discriminate|]. exact IH. }
    destruct (index_of x dims) as [i|] eqn:Ei; [|destruct (Bad _ E)].
    destruct (nth_error s i) as [len|] eqn:En; [|destruct (Bad _ E)].
    destruct (IH _ _ _ E) as [I1 I2]. split.
    + intros n Hn. cbn in Hn. destruct (I1 n) as [K1 K2]; [tauto|].
      rewrite assoc_set_other in K1 by (intros ->; tauto). rewrite assoc_set_other in K2 by (intros ->; tauto). auto.
    + intros n Hn. destruct (in_dec string_dec n t) as [Ht|Ht]; [apply I2; exact Ht|].
      destruct Hn as [->|Hn]; [|contradiction]. destruct (I1 n Ht) as [K1 K2]. rewrite assoc_set_same in K1. rewrite assoc_set_same in K2.
      exists i, len. auto.
Qed.

Lemma index_nth n l i : index_of n l = Some i -> nth_error l i = Some n.
Proof.
  revert i. induction l as [|x t IH]; intro i; cbn; [discriminate|].
  destruct (String.eqb_spec n x) as [->|]; [intro E; injection E as <-; reflexivity|].
  destruct (index_of n t); cbn; [|discriminate]. intro E; injection E as <-. cbn. apply IH; reflexivity.
Qed.

Lemma get_cm_given kw ds shape cm : NoDup (map fst kw) -> get_cm kw ds shape = Ok cm ->
  let base := match ds with Some l => l | None => plain_given kw end in
  cm_dims cm = base ++ own_given base kw /\
  (forall n v, In (n, KSimple v) kw -> exists m, given v m /\
     assoc n (cm_coords cm) = Some m /\ assoc n (cm_dmap cm) = Some [n]) /\
  (forall n l v, In (n, KTuple l v) kw -> exists m, given v m /\
     assoc n (cm_coords cm) = Some m /\ assoc n (cm_dmap cm) = Some l) /\
  (forall n, ~ In n (map fst kw) -> forall m, assoc n (cm_coords cm) = Some m ->
     exists s i len, shape = Some s /\ nth_error (cm_dims cm) i = Some n /\ nth_error s i = Some len /\
       m = M1 (CPart len) /\ assoc n (cm_dmap cm) = Some [n]).
Proof.
  intros ND E base. unfold get_cm in E.
  assert (Eb : match ds with Some d => d | None => simple_names kw end = base)
    by (unfold base; destruct ds; [reflexivity|apply simple_plain]).
  rewrite Eb in E. clear Eb. clearbody base.
  unfold coord_dim_map in E. destruct (coord_items base kw ([], [], [])) as [[[c d] nd]|] eqn:Ec; [cbn [bind] in E|discriminate].
  destruct (coord_items_spec base kw _ _ _ _ _ _ ND Ec) as (I1 & I2 & I3). cbn [app] in I3. subst nd.
  set (dims := base ++ own_given base kw) in *.
  set (missing := filter (fun n => match assoc n c with Some _ => false | None => true end) dims) in *.
  assert (Cin : forall e, In e kw -> exists m, assoc (fst e) c = Some m).
  { intros e Hin. specialize (I1 e Hin). unfold entry in I1. destruct (snd e); try contradiction; destruct I1 as (m & _ & H & _); eauto. }
  assert (Nm : forall e, In e kw -> ~ In (fst e) missing).
  { intros e Hin J. apply filter_In in J. destruct J as [_ J]. destruct (Cin e Hin) as [m Em]. rewrite Em in J. discriminate. }
  assert (R : exists c2 d2, cm = mkCm dims c2 d2 /\
     (forall n, ~ In n missing -> assoc n c2 = assoc n c /\ assoc n d2 = assoc n d) /\
     (forall n, In n missing -> forall m, assoc n c2 = Some m -> exists s i len, shape = Some s /\
        nth_error dims i = Some n /\ nth_error s i = Some len /\ m = M1 (CPart len) /\ assoc n d2 = Some [n])).
  { assert (Plain : build_cm dims c d = Ok cm -> (forall n, In n missing -> assoc n c = None) -> exists c2 d2, cm = mkCm dims c2 d2 /\
     (forall n, ~ In n missing -> assoc n c2 = assoc n c /\ assoc n d2 = assoc n d) /\
     (forall n, In n missing -> forall m, assoc n c2 = Some m -> exists s i len, shape = Some s /\
        nth_error dims i = Some n /\ nth_error s i = Some len /\ m = M1 (CPart len) /\ assoc n d2 = Some [n])).
    { intros B Hn. destruct (proj2 (build_cm_accepted _ _ _) cm B) as [_ ->]. exists c, d.
      split; [reflexivity|]. split; [auto|]. intros n J m Em. rewrite (Hn n J) in Em. discriminate. }
    assert (Hm : forall n, In n missing -> assoc n c = None).
    { intros n J. apply filter_In in J. destruct J as [_ J]. destruct (assoc n c); [discriminate|reflexivity]. }
    destruct shape as [s|]; [|apply Plain; assumption].
    destruct missing as [|x0 xs] eqn:Emi; [apply Plain; assumption|]. rewrite <- Emi in *. clear Plain.
    destruct (fold_left _ missing (Ok (c, d))) as [r|] eqn:Ef; [cbn [bind] in E|discriminate].
    destruct (fold_parts dims s missing c d r Ef) as [F1 F2].
    destruct (proj2 (build_cm_accepted _ _ _) cm E) as [_ ->]. exists (fst r), (snd r).
    split; [reflexivity|]. split; [exact F1|].
    intros n J m Em. destruct (F2 n J) as (i & len & A1 & A2 & A3 & A4).
    exists s, i, len. split; [reflexivity|]. split; [apply index_nth; exact A1|]. split; [exact A2|].
    split; [congruence|exact A4]. }
  destruct R as (c2 & d2 & -> & R1 & R2). cbn [cm_dims cm_coords cm_dmap].
  split; [reflexivity|]. split; [|split].
  - intros n v Hin. destruct (R1 n (Nm _ Hin)) as [-> ->]. destruct (I1 _ Hin) as (m & A1 & A2 & A3 & _). eauto.
  - intros n l v Hin. destruct (R1 n (Nm _ Hin)) as [-> ->]. destruct (I1 _ Hin) as (m & A1 & A2 & A3). eauto.
  - intros n Hn m Em. destruct (in_dec string_dec n missing) as [J|J]; [apply R2; assumption|].
    destruct (R1 n J) as [A1 _]. rewrite A1 in Em. destruct (I2 n Hn) as [A2 _]. rewrite A2 in Em. discriminate.
Qed.

(** ** Two coordinates of one dimension *)
Lemma nodup_one {A} (l : list A) n : NoDup l -> (forall x, In x l <-> x = n) -> l = [n].
Proof.
  intros ND H. destruct l as [|x [|y t]].
  - exfalso. apply (proj2 (H n) eq_refl).
  - f_equal. apply H. left; reflexivity.
  - exfalso. assert (x = n) by (apply H; left; reflexivity). assert (y = n) by (apply H; right; left; reflexivity).
    subst. inversion ND as [|? ? N _]; subst. apply N. left; reflexivity.
Qed.
Lemma nodup_two {A} (l : list A) a b : a <> b -> NoDup l -> (forall x, In x l <-> x = a \/ x = b) -> l = [a; b] \/ l = [b; a].
Proof.
  intros Hab ND H. assert (P : Permutation [a; b] l).
  { apply NoDup_Permutation; [constructor; [cbn; intuition congruence|constructor; [intros []|constructor]]|exact ND|].
    intro x. rewrite H. cbn. intuition congruence. }
  apply Permutation_length_2_inv in P. exact P.
Qed.

Lemma lists_one cm n a ds : wf_cm cm -> assoc n (cm_dmap cm) = Some ds ->
  single_dim_lists cm [(n, a)] = Ok [[(n, a)]].
Proof.
  intros W D. unfold single_dim_lists.
  assert (U : filter (fun x => mem x (map fst [(n, a)])) (map fst (cm_coords cm)) = [n]).
  { apply nodup_one; [apply NoDup_filter, (wf_ckeys _ W)|]. intro x. rewrite filter_In, mem_In'. cbn. split; [intuition congruence|].
    intros ->. split; [|left; reflexivity]. apply assoc_In. destruct (con_coord _ (wf_con _ W) n ds D) as (m & E & _). eauto. }
  rewrite U. cbn [sort_strs fold_right insert_str map_result]. rewrite D. cbn [bind dup_dims existsb negb map orb List.concat assoc app].
  rewrite String.eqb_refl. reflexivity.
Qed.

Lemma lists_two cm n1 n2 a1 a2 d kw : wf_cm cm -> n1 <> n2 -> String.leb n1 n2 = true ->
  assoc n1 (cm_dmap cm) = Some [d] -> assoc n2 (cm_dmap cm) = Some [d] ->
  Permutation kw [(n1, a1); (n2, a2)] -> single_dim_lists cm kw = Ok [[(n1, a1)]; [(n2, a2)]].
Proof.
  intros W Hne Hle D1 D2 P. apply Permutation_sym, Permutation_length_2_inv in P.
  assert (Hl : String.leb n2 n1 = false).
  { destruct (String.leb n2 n1) eqn:E; [|reflexivity]. exfalso. apply Hne. apply String.leb_antisym; assumption. }
  assert (Keys : forall x, In x (map fst kw) <-> x = n1 \/ x = n2) by (destruct P as [->| ->]; intro x; cbn; intuition congruence).
  assert (A1 : assoc n1 kw = Some a1).
  { destruct P as [->| ->]; cbn; rewrite String.eqb_refl; destruct (String.eqb_spec n1 n2); congruence. }
  assert (A2 : assoc n2 kw = Some a2).
  { destruct P as [->| ->]; cbn; rewrite String.eqb_refl; destruct (String.eqb_spec n2 n1); congruence. }
  clear P. unfold single_dim_lists.
  assert (U : sort_strs (filter (fun x => mem x (map fst kw)) (map fst (cm_coords cm))) = [n1; n2]).
  { destruct (nodup_two (filter (fun x => mem x (map fst kw)) (map fst (cm_coords cm))) n1 n2 Hne) as [->| ->].
    - apply NoDup_filter, (wf_ckeys _ W).
    - intro x. rewrite filter_In, mem_In', Keys. split; [tauto|]. intro Hx. split; [|exact Hx]. apply assoc_In.
      assert (Dx : assoc x (cm_dmap cm) = Some [d]) by (destruct Hx as [->| ->]; assumption).
      destruct (con_coord _ (wf_con _ W) x [d] Dx) as (m & E & _). eauto.
    - cbn. rewrite Hle. reflexivity.
    - cbn. rewrite Hl. reflexivity. }
  rewrite U. cbn [map_result]. rewrite D1, D2. cbn [bind dup_dims existsb].
  assert (Ed : strs_eqb [d] [d] = true) by (apply strs_eqb_eq; reflexivity). rewrite Ed. cbn [orb negb combine fold_left group_add fst snd].
  rewrite Ed. cbn [app map List.length Nat.max fold_left seq nth_error List.concat snd]. rewrite A1, A2. reflexivity.
Qed.

Lemma restricts_facts {A} (p q : patch A) : restricts p q -> forall n, assoc n (cm_dmap (p_cm q)) = assoc n (cm_dmap (p_cm p)).
Proof.
  induction 1 as [|p q r pick own [_ [(_ & D & _) _]] _ _ IH]; [reflexivity|]. intro n. rewrite IH. apply D.
Qed.
Lemma restricts_wf {A} (p q : patch A) : restricts p q -> wf_patch q.
Proof. induction 1; assumption. Qed.

Lemma pt_select_two {A} (p p1 p2 : patch A) n1 n2 a1 a2 d kw :
  wf_patch p -> plain_names (p_cm p) -> n1 <> n2 -> String.leb n1 n2 = true ->
  assoc n1 (cm_dmap (p_cm p)) = Some [d] -> assoc n2 (cm_dmap (p_cm p)) = Some [d] ->
  Permutation kw [(n1, a1); (n2, a2)] -> backwards a1 = false ->
  pt_select p false false [(n1, a1)] = Ok p1 -> pt_select p1 false false [(n2, a2)] = Ok p2 ->
  nd_shape (p_data p1) <> nd_shape (p_data p) -> nd_shape (p_data p2) <> nd_shape (p_data p1) ->
  nd_shape (p_data p2) <> nd_shape (p_data p) ->
  pt_select p false false kw = Ok p2.
Proof.
  intros WP PN Hne Hle D1 D2 P B E1 E2 S1 S2 S3.
  assert (K1 : exists q, restricts p q /\ (p1 = q \/ (p1 = p /\ p_data q = p_data p /\ cm_approx (p_cm q) (p_cm p) = true))).
  { apply (pt_select_sound p p1 false false [(n1, a1)]); auto. intros e [<-|[]]. exact B. }
  destruct K1 as (q & Rq & [->|(-> & _)]); [|congruence].
  pose proof (restricts_wf _ _ Rq) as WQ. pose proof (restricts_facts _ _ Rq n2) as DQ. rewrite D2 in DQ. clear Rq.
  unfold pt_select in *.
  assert (Kn : forall n, assoc n (cm_dmap (p_cm p)) = Some [d] -> mem n (map fst (cm_coords (p_cm p))) = true).
  { intros n D. apply mem_In', assoc_In. destruct (con_coord _ (wf_con _ (wp_cm _ WP)) n [d] D) as (m & E & _). eauto. }
  assert (Hk : forallb (fun e => mem (fst e) (map fst (cm_coords (p_cm p)))) kw = true).
  { apply forallb_forall. intros e Hin. apply (Permutation_in _ P) in Hin. destruct Hin as [<-|[<-|[]]]; apply Kn; assumption. }
  rewrite Hk. cbn [negb].
  destruct (negb (forallb _ [(n1, a1)])); [discriminate|]. destruct (negb (forallb _ [(n2, a2)])); [discriminate|].
  unfold cm_select in *. cbn [orb bind] in *.
  rewrite (lists_one _ n1 a1 _ (wp_cm _ WP) D1) in E1. rewrite (lists_one _ n2 a2 _ (wp_cm _ WQ) DQ) in E2.
  rewrite (lists_two _ n1 n2 a1 a2 d kw (wp_cm _ WP) Hne Hle D1 D2 P). cbn [bind] in *. cbn [select_loop] in *.
  destruct (indexers_and_coords (p_cm p) _ [(n1, a1)]) as [x1|]; [cbn [bind] in *|discriminate].
  destruct (with_dims (p_cm p) (fst x1)) as [k1|]; [cbn [bind] in *|discriminate].
  destruct (cm_update (p_cm p) k1) as [cm1|]; [cbn [bind] in *|discriminate].
  destruct (apply_indexers (p_data p) 0 _) as [b1|]; [cbn [bind fst snd] in *|discriminate].
  destruct (zlist_eqb (nd_shape b1) (nd_shape (p_data p)) && cm_approx cm1 (p_cm p)).
  { injection E1 as <-. congruence. }
  unfold new_patch in E1. destruct (cm_shape cm1); [cbn [bind] in E1|discriminate].
  destruct (zlist_eqb _ _); [|discriminate]. injection E1 as <-. cbn [p_cm p_data] in *.
  destruct (indexers_and_coords cm1 _ [(n2, a2)]) as [x2|]; [cbn [bind] in *|discriminate].
  destruct (with_dims cm1 (fst x2)) as [k2|]; [cbn [bind] in *|discriminate].
  destruct (cm_update cm1 k2) as [cm2|]; [cbn [bind] in *|discriminate].
  destruct (apply_indexers b1 0 _) as [b2|]; [cbn [bind fst snd] in *|discriminate].
  destruct (zlist_eqb (nd_shape b2) (nd_shape b1) && cm_approx cm2 cm1).
  { injection E2 as <-. cbn in S2. congruence. }
  assert (Sb : nd_shape b2 <> nd_shape (p_data p)).
  { unfold new_patch in E2. destruct (cm_shape cm2); [cbn [bind] in E2|discriminate].
    destruct (zlist_eqb _ _); [|discriminate]. injection E2 as <-. exact S3. }
  destruct (zlist_eqb (nd_shape b2) (nd_shape (p_data p))) eqn:Q; [apply zlist_eqb_eq in Q; contradiction|].
  cbn [andb]. exact E2.
Qed.

(** ** Snapping *)
Definition snapm (m : mcoord) : mcoord := match m_snap m with Ok (Some c) => M1 c | _ => m end.

Lemma one_least (x : Z) : is_least x [x] /\ is_greatest x [x].
Proof. split; (split; [left; reflexivity|intros y [<-|[]]; lia]). Qed.

Lemma snap_can mono v : (zlen v = 1 \/ exists mn mx, is_least mn v /\ is_greatest mx v /\
    2 <= zlen v /\ 0 < round_half_even (mx - mn) (zlen v - 1)) ->
  exists r, snap KTime mono v = Ok (CRange r) /\ r_len r = zlen v /\
    evened (mono && step_meets false v) v (M1 (CRange r)).
Proof.
  intros H. assert (K : exists mn mx, is_least mn v /\ is_greatest mx v /\ v <> [] /\
     0 < if zlen v =? 1 then 1000000000 else round_half_even (mx - mn) (zlen v - 1)).
  { destruct H as [H|(mn & mx & L & G & H2 & P)].
    - destruct v as [|x [|y t]]; [discriminate| |exfalso; rewrite !zlen_cons in H; pose proof (zlen_nonneg t); lia].
      exists x, x. destruct (one_least x). repeat split; try assumption; try discriminate; apply H0 || apply H1.
    - exists mn, mx. split; [exact L|]. split; [exact G|]. split; [intros ->; change (zlen (@nil Z)) with 0 in H2; lia|].
      destruct (Z.eqb_spec (zlen v) 1); [lia|exact P]. }
  destruct K as (mn & mx & L & G & Nv & P).
  destruct (snap_spec mono v mn mx Nv L G) as [S _]. destruct (S P) as (r & E & W & Ln & St & Sp).
  exists r. split; [exact E|]. split; [exact Ln|]. exists r, mn, mx. auto 10.
Qed.

Lemma m_snap_can c : can_snap c -> exists o, m_snap (M1 c) = Ok o /\ snapped (M1 c) (snapm (M1 c)) /\
  (exists c', snapm (M1 c) = M1 c' /\ c_len c' = c_len c).
Proof.
  unfold snapm. destruct c as [r|[] v|[] v|n]; cbn [m_snap can_snap]; intro H; try contradiction.
  - eexists. split; [reflexivity|]. split; [reflexivity|eauto].
  - destruct (snap_can true v H) as (r & -> & Ln & Ev). cbn [bind]. eexists. split; [reflexivity|]. split.
    + exists (step_meets false v). split; [exact Ev|]. split; [intros As _; apply ascending_not_rev; exact As|apply descending_rev].
    + eexists. split; [reflexivity|exact Ln].
  - destruct (snap_can false v H) as (r & -> & Ln & Ev). cbn [bind]. eexists. split; [reflexivity|]. split; [exact Ev|].
    eexists. split; [reflexivity|exact Ln].
  - eexists. split; [reflexivity|]. split; [reflexivity|eauto].
Qed.

Definition snap_ups (co : list (string * mcoord)) (n : string) : list (string * mcoord) :=
  match assoc n co with
  | Some m => match m_snap m with Ok (Some c) => [(n, M1 c)] | _ => [] end
  | None => [] end.

Lemma snap_ups_keys co x l : In x (map fst (List.concat (map (snap_ups co) l))) -> In x l.
Proof.
  induction l as [|n t IH]; [intros []|]. cbn [map List.concat]. rewrite map_app, in_app_iff. intros [J|J]; [left|right; auto].
  unfold snap_ups in J. destruct (assoc n co); [|destruct J]. destruct (m_snap m) as [[c|]|]; cbn in J; intuition.
Qed.
Lemma snap_ups_nodup co l : NoDup l -> NoDup (map fst (List.concat (map (snap_ups co) l))).
Proof.
  induction 1 as [|n t N ND IH]; [constructor|]. cbn [map List.concat]. unfold snap_ups at 1.
  destruct (assoc n co) as [m|]; [|exact IH]. destruct (m_snap m) as [[c|]|]; try exact IH.
  cbn [app map fst]. constructor; [|exact IH]. intro J. apply N. eapply snap_ups_keys; exact J.
Qed.
Lemma snap_ups_assoc co l x : NoDup l ->
  assoc x (set_all (List.concat (map (snap_ups co) l)) co) =
  if mem x l then option_map snapm (assoc x co) else assoc x co.
Proof.
  intros ND. rewrite set_all_assoc by (apply snap_ups_nodup; exact ND).
  assert (Q : assoc x (List.concat (map (snap_ups co) l)) =
     if mem x l then match assoc x co with Some m => match m_snap m with Ok (Some c) => Some (M1 c) | _ => None end | None => None end else None).
  { induction ND as [|n t N ND IH]; [reflexivity|]. cbn [map List.concat]. rewrite assoc_app, IH.
    change (mem x (n :: t)) with (String.eqb x n || mem x t). unfold snap_ups.
    destruct (String.eqb_spec x n) as [->|Hn]; cbn [orb].
    - destruct (mem n t) eqn:M; [apply mem_In' in M; contradiction|].
      destruct (assoc n co) as [m|]; [|reflexivity]. destruct (m_snap m) as [[c|]|]; cbn; rewrite ?String.eqb_refl; reflexivity.
    - destruct (assoc n co) as [m|]; [|reflexivity]. destruct (m_snap m) as [[c|]|]; cbn; try reflexivity.
      destruct (String.eqb_spec x n); [contradiction|reflexivity]. }
  rewrite Q. destruct (mem x l); [|reflexivity]. destruct (assoc x co) as [m|]; [|reflexivity]. unfold snapm.
  cbn [option_map]. destruct (m_snap m) as [[c|]|]; reflexivity.
Qed.

Lemma pt_snap_ok {A} argsort (p q : patch A) names reverse :
  let ns := match names with [] => cm_dims (p_cm p) | _ => names end in
  valid_argsort argsort -> wf_patch p -> separate (p_cm p) ns ->
  (forall n, In n ns -> exists c d, assoc n (cm_coords (p_cm p)) = Some (M1 c) /\
     assoc n (cm_dmap (p_cm p)) = Some [d]) ->
  pt_sort argsort p names reverse = Ok q ->
  (forall n, In n ns -> exists c, assoc n (cm_coords (p_cm q)) = Some (M1 c) /\ can_snap c) ->
  exists p', pt_snap argsort p names reverse = Ok p' /\ p_data p' = p_data q /\
    consistent (p_cm p') /\ cm_dims (p_cm p') = cm_dims (p_cm q) /\ cm_dmap (p_cm p') = cm_dmap (p_cm q) /\
    (forall n m, In n ns -> assoc n (cm_coords (p_cm q)) = Some m ->
       exists m', assoc n (cm_coords (p_cm p')) = Some m' /\ snapped m m') /\
    (forall n, ~ In n ns -> assoc n (cm_coords (p_cm p')) = assoc n (cm_coords (p_cm q))).
Proof.
  intros ns VA WP Sep Hin Es Hs.
  assert (Ns : ns <> []) by (unfold ns; destruct names; [apply (wp_some _ WP)|discriminate]).
  assert (Es' : pt_sort argsort p ns reverse = Ok q).
  { revert Es. unfold pt_sort, cm_sort, ns. destruct names; [|auto]. destruct (cm_dims (p_cm p)) eqn:D; [auto|]. auto. }
  destruct (pt_sort_one argsort p ns reverse VA WP Ns Sep Hin) as (q' & pick & Eq & Cq & Al & _).
  rewrite Es' in Eq. injection Eq as <-.
  assert (NDn : NoDup ns) by (apply (separate_NoDup _ _ Sep)).
  unfold pt_sort in Es. unfold pt_snap, cm_snap. fold ns.
  assert (Ec : cm_sort argsort (p_cm p) ns reverse = cm_sort argsort (p_cm p) names reverse).
  { unfold cm_sort, ns. destruct names; [|reflexivity]. destruct (cm_dims (p_cm p)) eqn:D; [|reflexivity]. reflexivity. }
  rewrite Ec.
  destruct (cm_sort argsort (p_cm p) names reverse) as [o|] eqn:So; [cbn [bind] in *|discriminate].
  assert (St : exists cm1 ixs, match o with Some x => x | None => (p_cm p, []) end = (cm1, ixs) /\
     cm1 = p_cm q /\ apply_axes (p_data p) ixs = Some (p_data q) /\ cm_dims cm1 = cm_dims (p_cm p) /\
     cm_dmap cm1 = cm_dmap (p_cm p) /\
     cm_shape (p_cm p) = Ok (nd_shape (p_data q)) /\ cm_shape cm1 = Ok (nd_shape (p_data q))).
  { destruct o as [[cm1 ixs]|].
    - exists cm1, ixs. split; [reflexivity|].
      destruct (apply_axes (p_data p) ixs) as [a|]; [|discriminate]. unfold new_patch in Es.
      destruct (cm_shape cm1) as [s1|] eqn:S1; [cbn [bind] in Es|discriminate].
      destruct (zlist_eqb s1 (nd_shape a)) eqn:Z; [|discriminate]. injection Es as <-. cbn [p_cm p_data].
      apply zlist_eqb_eq in Z. subst s1. split; [reflexivity|]. split; [reflexivity|].
      unfold cm_sort in So. step So. destruct (negb _) in So; [discriminate|].
      match type of So with (match ?x with _ => _ end) = _ => destruct x as [|n0 ns0]; [discriminate|] end.
      step So. step So. step So. step So. destruct (zlist_eqb _ _) eqn:Z2 in So; [|discriminate]. injection So as <- _.
      apply zlist_eqb_eq in Z2. destruct (proj2 (build_cm_accepted _ _ _) _ E1) as [_ Q]. subst a2.
      cbn [cm_dims cm_dmap]. split; [reflexivity|]. split; [reflexivity|].
      rewrite S1 in E3. injection E3 as <-. subst a3. auto.
    - injection Es as <-. exists (p_cm p), []. repeat split; try (apply cm_shape_spec; [apply (wp_some _ WP)|apply (wp_shape _ WP)]). }
  destruct St as (cm1 & ixs & -> & -> & Ax & Dm & Dd & Sh0 & Sh1).
  set (co := cm_coords (p_cm q)) in *.
  rewrite (map_result_map _ (snap_ups co)).
  2:{ intros n J. destruct (Hs n J) as (c & E & Can). destruct (m_snap_can c Can) as (o' & Eo & _).
      unfold snap_ups. rewrite E, Eo. reflexivity. }
  cbn [bind].
  set (us := List.concat (map (snap_ups co) ns)).
  set (cm2 := mkCm (cm_dims (p_cm q)) (set_all us co) (cm_dmap (p_cm q))).
  assert (As : forall x, assoc x (set_all us co) = if mem x ns then option_map snapm (assoc x co) else assoc x co)
    by (intro x; apply snap_ups_assoc; exact NDn).
  assert (Len : forall d k, dim_len (p_cm q) d k -> dim_len cm2 d k).
  { intros d k (c & E & L). unfold dim_len. cbn [cm_coords cm2]. rewrite As. fold co in E. rewrite E. destruct (mem d ns) eqn:M; [|eauto].
    apply mem_In' in M. destruct (Hs d M) as (c0 & E0 & Can). rewrite E0 in E. injection E as ->.
    destruct (m_snap_can c Can) as (_ & _ & _ & c' & Q & L'). cbn [option_map]. rewrite Q. exists c'. split; [reflexivity|]. congruence. }
  assert (C2 : consistent cm2).
  { split.
    - intros d J. destruct (con_dim _ Cq d J) as [[c E] D]. split; [|exact D].
      destruct (Len d (c_len c)) as (c' & E' & _); [exists c; auto|]. eauto.
    - intros n ds D. destruct (con_coord _ Cq n ds D) as (m & E & I & F). cbn [cm_coords cm2]. fold co in E.
      exists (if mem n ns then snapm m else m). rewrite As, E. split; [destruct (mem n ns); reflexivity|].
      split; [exact I|]. destruct F as [F|F]; [left; exact F|right].
      assert (Sm : m_shape (if mem n ns then snapm m else m) = m_shape m).
      { destruct (mem n ns) eqn:M; [|reflexivity]. apply mem_In' in M. destruct (Hs n M) as (c0 & E0 & Can).
        rewrite E0 in E. injection E as <-. destruct (m_snap_can c0 Can) as (_ & _ & _ & c' & Q & L'). rewrite Q. cbn. congruence. }
      rewrite Sm. eapply Forall2_impl; [|exact F]. intros d k. apply Len. }
  assert (Sh : Forall2 (dim_len (p_cm q)) (cm_dims (p_cm q)) (nd_shape (p_data q))).
  { rewrite Dm. assert (X := Sh1). unfold cm_shape in X. rewrite Dm in X. destruct (cm_dims (p_cm p)) eqn:D; [destruct (wp_some _ WP D)|].
    rewrite <- D in *. apply map_result_Forall2 in X. assert (Kd : forall d, In d (cm_dims (p_cm p)) -> In d (cm_dims (p_cm q))) by (rewrite Dm; auto).
    revert Kd. generalize (cm_dims (p_cm p)) (nd_shape (p_data q)) X. clear - Cq co. intros l s X. induction X as [|d k l s H X IH]; [constructor|].
    intro Kd. constructor; [|apply IH; intros; apply Kd; right; assumption].
    destruct (con_dim _ Cq d (Kd d (or_introl eq_refl))) as [[c E] _]. exists c. split; [exact E|].
    rewrite E in H. cbn in H. congruence. }
  assert (Sh2 : Forall2 (dim_len cm2) (cm_dims cm2) (nd_shape (p_data q))) by (eapply Forall2_impl; [|exact Sh]; intros d k; apply Len).
  assert (N2 : cm_dims cm2 <> []) by (cbn; rewrite Dm; apply (wp_some _ WP)).
  assert (Fin : forall cmx, cm_dims cmx = cm_dims (p_cm q) -> cm_dmap cmx = cm_dmap (p_cm q) ->
     (forall x, assoc x (cm_coords cmx) = assoc x (cm_coords cm2)) -> consistent cmx ->
     Forall2 (dim_len cmx) (cm_dims cmx) (nd_shape (p_data q)) ->
     exists p', match apply_axes (p_data p) ixs with None => Err IndexError | Some a => new_patch cmx a end = Ok p' /\
       p_data p' = p_data q /\
    consistent (p_cm p') /\ cm_dims (p_cm p') = cm_dims (p_cm q) /\ cm_dmap (p_cm p') = cm_dmap (p_cm q) /\
    (forall n m, In n ns -> assoc n co = Some m ->
       exists m', assoc n (cm_coords (p_cm p')) = Some m' /\ snapped m m') /\
    (forall n, ~ In n ns -> assoc n (cm_coords (p_cm p')) = assoc n co)).
  { intros cmx X1 X2 X3 X4 X5. rewrite Ax. destruct (new_patch_exact cmx (p_data q) X4) as [NP _]; [rewrite X1; exact N2|].
    rewrite (NP X5). eexists. split; [reflexivity|]. cbn [p_cm p_data]. split; [reflexivity|]. split; [exact X4|]. split; [exact X1|]. split; [exact X2|].
    split.
    - intros n m J E. rewrite X3. cbn [cm_coords cm2]. rewrite As, E. rewrite (proj2 (mem_In' _ _) J). cbn [option_map].
      eexists. split; [reflexivity|]. destruct (Hs n J) as (c & E' & Can). rewrite E' in E. injection E as <-. destruct (m_snap_can c Can) as (_ & _ & Q & _). exact Q.
    - intros n J. rewrite X3. cbn [cm_coords cm2]. rewrite As. destruct (mem n ns) eqn:M; [apply mem_In' in M; contradiction|reflexivity]. }
  assert (Go : match us with [] => Ok (p_cm q, ixs) | u :: l => do out <- build_cm (cm_dims (p_cm q)) (set_all (u :: l) co) (cm_dmap (p_cm q));
        do s0 <- cm_shape (p_cm p); do s1 <- cm_shape out; if zlist_eqb s0 s1 then Ok (out, ixs) else Err AssertionError end =
     Ok (match us with [] => p_cm q | _ => cm2 end, ixs)).
  { assert (Bd : build_cm (cm_dims (p_cm q)) (set_all us co) (cm_dmap (p_cm q)) = Ok cm2).
    { apply (proj1 (build_cm_accepted _ _ _)). apply (consistent_accepted cm2 C2). cbn. rewrite Dd. apply (wf_dkeys _ (wp_cm _ WP)). }
    destruct us as [|u l] eqn:U; [reflexivity|]. rewrite Bd. cbn [bind]. rewrite Sh0. rewrite (cm_shape_spec cm2 _ N2 Sh2). cbn [bind].
    rewrite (proj2 (zlist_eqb_eq _ _) eq_refl). reflexivity. }
  rewrite Go. cbn [bind fst snd].
  assert (K : us = [] \/ us <> []) by (destruct us; [left; reflexivity|right; discriminate]). destruct K as [U|U].
  - rewrite U. apply Fin; auto. intro x. cbn [cm_coords cm2]. rewrite U. reflexivity.
  - replace (match us with [] => p_cm q | _ => cm2 end) with cm2 by (destruct us; [congruence|reflexivity]). apply Fin; auto.
Qed.
