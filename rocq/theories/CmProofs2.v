(** Lemmas behind CmProps.v: rebuilding coordinates and update. *)
From Verif Require Import Base BaseFacts CoordModel CoordSpec CoordProofs CoordProofs2 CoordProofs3
  CoordProofs4 NdModel NdSpec NdProofs NdProofs2 FrameModel FrameProofs5 ChunkModel CmModel CmSpec CmProofs.
From Coq Require Import Strings.String ZifyBool Sorting.Permutation Sorting.Sorted.
Ltac Zify.zify_post_hook ::= Z.div_mod_to_equations.
Local Open Scope Z_scope.
Local Open Scope list_scope.

(** ** Rebuilding a coordinate *)
Definition okc (c : coord) : Prop :=
  match c with CRange r => wf_range r | CPart n => 0 <= n | _ => True end.
Definition okm (m : mcoord) : Prop :=
  match m with
  | M1 c => okc c
  | MN _ a => wf_nd a /\ List.length (nd_shape a) <> 1%nat
  | MNP s => Forall (fun n => 0 <= n) s /\ List.length s <> 1%nat
  end.
Lemma wf_okc c : wf_coord c -> okc c.
Proof. destruct c; cbn; tauto. Qed.
Lemma honest_okc c : honest c -> okc c.
Proof. destruct c; cbn; tauto. Qed.
Lemma wf_okm m : wf_mcoord m -> okm m.
Proof. destruct m; cbn; try tauto. apply wf_okc. Qed.
Lemma okm_ndim m : okm m -> ndim_ok m.
Proof. destruct m; cbn; tauto. Qed.

Lemma c_len_values c : okc c -> zlen (c_values c) = c_len c.
Proof.
  destruct c as [r|k v|k v|n]; cbn [okc c_values c_len]; intros H; try apply zlen_map.
  - rewrite zlen_map. apply zlen_r_values. exact H.
  - unfold zlen. rewrite repeat_length. lia.
Qed.
Lemma values_ints c vs : okc c -> c_values c = map Some vs -> vs <> [] -> c_ints c = vs.
Proof.
  intros H E N. assert (I : forall a b : list Z, map Some a = map Some b -> a = b).
  { induction a as [|x a IH]; intros [|y b]; cbn; try discriminate; [reflexivity|].
    intros [= -> E']. f_equal. apply IH. exact E'. }
  destruct c as [r|k v|k v|n]; cbn in *; try (apply I; exact E).
  destruct vs; [congruence|]. destruct (Z.to_nat n); cbn in E; discriminate.
Qed.
Lemma c_ints_len c : okc c -> concrete c -> zlen (c_ints c) = c_len c.
Proof.
  destruct c; cbn; intros H C; try reflexivity; [|destruct C]. apply zlen_r_values. exact H.
Qed.

Lemma map_Some_inj {A} (a b : list A) : map Some a = map Some b -> a = b.
Proof.
  revert b. induction a as [|x a IH]; intros [|y b]; cbn; try discriminate; [reflexivity|].
  intros [= -> E]. f_equal. apply IH. exact E.
Qed.

(** Rebuilding a 1-D coordinate keeps what it stands for. *)
Definition rebuilt (c c' : coord) : Prop :=
  wf_coord c' /\ c_len c' = c_len c /\
  (concrete c -> represents c' (c_ints c)) /\
  (forall n, c = CPart n -> c' = CPart n) /\
  (forall vs, represents c vs -> represents c' vs).

Lemma rebuilt_array k v c : (c = CMono k v \/ c = CArr k v) ->
  exists c', get_coord_data k v = Ok c' /\ rebuilt c c'.
Proof.
  intros Hc. destruct (get_coord_represents k v) as (c' & E' & R & W).
  exists c'. split; [exact E'|]. pose proof R as (A & B & C).
  assert (V : c_values c = map Some v) by (destruct Hc as [->| ->]; reflexivity).
  assert (I : c_ints c = v) by (destruct Hc as [->| ->]; reflexivity).
  assert (L : c_len c = zlen v) by (destruct Hc as [->| ->]; reflexivity).
  split; [exact W|]. split; [|split; [|split]].
  - rewrite <- (c_len_values c' (wf_okc _ W)). congruence.
  - intros _. rewrite I. exact R.
  - intros n ->. destruct Hc; discriminate.
  - intros vs (A' & B' & C'). rewrite V in *. rewrite zlen_map in A'. rewrite znth_map in B'.
    split; [lia|]. split; [congruence|]. intros S. specialize (C' S). apply map_Some_inj in C'.
    subst vs. apply C. exact S.
Qed.

Lemma recoord_1 c : okc c -> exists c', recoord (M1 c) = Ok (M1 c') /\ rebuilt c c'.
Proof.
  intros H. destruct c as [r|k v|k v|n]; cbn [recoord].
  - exists (CRange r). split; [reflexivity|].
    split; [exact H|]. split; [reflexivity|]. split; [|split; [congruence|auto]].
    intros _. apply represents_exact. reflexivity.
  - destruct (rebuilt_array k v (CMono k v) (or_introl eq_refl)) as (c' & -> & R).
    exists c'. auto.
  - destruct (rebuilt_array k v (CArr k v) (or_intror eq_refl)) as (c' & -> & R).
    exists c'. auto.
  - exists (CPart n). split; [reflexivity|].
    split; [exact H|]. split; [reflexivity|]. split; [intros []|split; auto].
Qed.

Lemma get_coord_nd_spec k a : wf_nd a -> List.length (nd_shape a) <> 1%nat ->
  m_shape (get_coord_nd k a) = nd_shape a /\ wf_mcoord (get_coord_nd k a).
Proof.
  intros W N. unfold get_coord_nd. destruct (Z.eqb_spec (size (nd_shape a)) 0) as [E|E]; cbn.
  - split; [reflexivity|]. split; [apply W|exact N].
  - split; [reflexivity|]. split; [exact W|]. split; [exact N|]. destruct W as [P L].
    enough (0 <= size (nd_shape a)) by lia. clear - P. induction P; cbn; [lia|].
    fold (size l). nia.
Qed.

Lemma recoord_spec m : okm m ->
  exists m', recoord m = Ok m' /\ m_shape m' = m_shape m /\ wf_mcoord m'.
Proof.
  destruct m as [c|k a|s]; cbn [okm].
  - intros H. destruct (recoord_1 c H) as (c' & -> & W & L & _). exists (M1 c').
    cbn. rewrite L. auto.
  - intros [W N]. exists (get_coord_nd k a). split; [reflexivity|]. apply get_coord_nd_spec; assumption.
  - intros [W N]. exists (MNP s). cbn. auto.
Qed.

(** ** Items of a keyword list *)
Lemma coord_items_ok dims kw fm fd fnew : forall c d nd,
  (forall e, In e kw -> coord_item dims e = Ok (fm e, fd e, fnew e)) ->
  NoDup (map fst kw) ->
  (forall x, In x (map fst kw) -> ~ In x (map fst c) /\ ~ In x (map fst d)) ->
  coord_items dims kw (c, d, nd) =
  Ok (c ++ map (fun e => (fst e, fm e)) kw, d ++ map (fun e => (fst e, fd e)) kw,
      nd ++ map fst (filter fnew kw)).
Proof.
  induction kw as [|e t IH]; intros c d nd H D X; cbn [coord_items map filter].
  - rewrite !app_nil_r. reflexivity.
  - inversion D as [|? ? N D']; subst. rewrite (H e (or_introl eq_refl)). cbn [bind].
    destruct (X (fst e) (or_introl eq_refl)) as [Xc Xd].
    rewrite !assoc_set_new by assumption. rewrite IH.
    + rewrite <- !app_assoc. cbn [app]. destruct (fnew e); cbn [map app]; rewrite <- ?app_assoc; reflexivity.
    + intros e' I. apply H. right; exact I.
    + exact D'.
    + intros x I. assert (x <> fst e) by congruence. destruct (X x (or_intror I)) as [A B].
      rewrite !map_app, !in_app_iff. cbn. split; intros [J|[J|[]]]; auto.
Qed.

Lemma coord_dim_map_ok dims kw fm fd fnew :
  (forall e, In e kw -> coord_item dims e = Ok (fm e, fd e, fnew e)) ->
  NoDup (map fst kw) ->
  coord_dim_map kw dims =
  Ok (map (fun e => (fst e, fm e)) kw, map (fun e => (fst e, fd e)) kw,
      dims ++ map fst (filter fnew kw)).
Proof.
  intros H D. unfold coord_dim_map. rewrite (coord_items_ok dims kw fm fd fnew) by (auto; intros; cbn; auto).
  reflexivity.
Qed.

Lemma coord_item_tuple dims n ds m : okm m ->
  (forall d, In d ds -> In d dims) \/ ds = [n] ->
  exists m', recoord m = Ok m' /\ wf_mcoord m' /\ m_shape m' = m_shape m /\
    coord_item dims (n, KTuple ds (VCoord m)) = Ok (m', ds, strs_eqb ds [n] && negb (mem n dims)).
Proof.
  intros K S. destruct (recoord_spec m K) as (m' & E & Sh & W). exists m'.
  split; [exact E|]. split; [exact W|]. split; [exact Sh|].
  unfold coord_item. cbn [fst snd].
  assert (negb (subset ds dims) && negb (subset ds [n] && subset [n] ds) = false) as ->.
  { apply andb_false_iff. destruct S as [S| ->]; [left|right]; apply negb_false_iff.
    - apply subset_spec. exact S.
    - apply andb_true_iff. split; apply subset_spec; auto. }
  cbn [cval_coord cval_shape]. rewrite E. cbn [bind].
  rewrite (proj2 (zlist_eqb_eq _ _) Sh). reflexivity.
Qed.

(** ** Update in general *)
Definition recf (m : mcoord) : mcoord := match recoord m with Ok m' => m' | Err _ => m end.
Lemma recf_spec m : okm m -> recoord m = Ok (recf m) /\ m_shape (recf m) = m_shape m /\ wf_mcoord (recf m).
Proof. intros H. destruct (recoord_spec m H) as (m' & E & X). unfold recf. rewrite E. auto. Qed.

Definition nones (kw : list (string * kval)) : list string := map fst (filter is_none kw).
Definition adds (kw : list (string * kval)) : list (string * kval) :=
  filter (fun e => negb (is_none e)) kw.

(** Dimension [d] is given a coordinate of another length. *)
Definition changed (cm : cman) (kw : list (string * kval)) (fm : string * kval -> mcoord)
  (d : string) : Prop :=
  exists e n c, In e kw /\ is_none e = false /\ fst e = d /\ In d (cm_dims cm) /\
    m_len (fm e) = Ok n /\ assoc d (cm_coords cm) = Some (M1 c) /\ c_len c <> n.

Definition lost (cm : cman) (kw : list (string * kval)) (fm : string * kval -> mcoord)
  (n : string) : Prop :=
  In n (nones kw) \/
  exists ds d, assoc n (cm_dmap cm) = Some ds /\ In d ds /\ (In d (nones kw) \/ changed cm kw fm d).

Lemma NoDup_keys_filter' {A} (f : string * A -> bool) (l : list (string * A)) :
  NoDup (map fst l) -> NoDup (map fst (filter f l)).
Proof.
  induction l as [|[k v] t IH]; cbn; intros D; [constructor|]. inversion D as [|? ? N D']; subst.
  destruct (f (k, v)); cbn; [constructor|]; auto.
  intros I. apply N. apply in_map_iff in I. destruct I as (e & <- & I).
  apply filter_In in I. apply in_map. tauto.
Qed.

Lemma dim_change_drop_ok cm l fm fd : wf_cm cm -> NoDup (map fst l) ->
  (forall e : string * kval, In e l -> In (fst e) (cm_dims cm) -> zlen (fd e) = 1 /\ exists n, m_len (fm e) = Ok n) ->
  exists L, dim_change_drop cm (map (fun e => (fst e, fm e)) l) (map (fun e => (fst e, fd e)) l) = Ok L /\
    forall x, In x L <-> exists e n c, In e l /\ In (fst e) (cm_dims cm) /\ m_len (fm e) = Ok n /\
      assoc (fst e) (cm_coords cm) = Some (M1 c) /\ c_len c <> n /\
      exists ds, assoc x (cm_dmap cm) = Some ds /\ In (fst e) ds.
Proof.
  intros W D H. unfold dim_change_drop.
  match goal with |- exists L, bind (map_result ?f _) _ = _ /\ _ => set (F := f) end.
  set (G := fun e : string * mcoord => match F e with Ok r => r | Err _ => [] end).
  assert (K : forall e, In e l -> exists r, F (fst e, fm e) = Ok r /\
     forall x, In x r <-> exists n c, In (fst e) (cm_dims cm) /\ m_len (fm e) = Ok n /\
      assoc (fst e) (cm_coords cm) = Some (M1 c) /\ c_len c <> n /\
      exists ds, assoc x (cm_dmap cm) = Some ds /\ In (fst e) ds).
  { intros e I. unfold F. cbn [fst snd]. destruct (mem (fst e) (cm_dims cm)) eqn:M; cbn [negb].
    - apply mem_In' in M. destruct (wf_dim_coord cm _ W M) as (c & C & _ & _).
      destruct (H e I M) as (Z1 & n & Ln). rewrite (assoc_map fd).
      assert (assoc (fst e) l = Some (snd e)) as ->.
      { apply in_assoc; [exact D|]. destruct e; exact I. }
      rewrite C. replace (fst e, snd e) with e by (destruct e; reflexivity). rewrite Z1. cbn [negb Z.eqb Pos.eqb].
      rewrite Ln. cbn [bind]. cbn [m_len m_shape]. cbn [bind].
      destruct (Z.eqb_spec n (c_len c)) as [E|E].
      + exists []. split; [reflexivity|]. intros x. split; [intros []|].
        intros (n' & c' & _ & E1 & E2 & E3 & _). congruence.
      + eexists. split; [reflexivity|]. intros x. rewrite in_map_iff. split.
        * intros ([y ds] & <- & J). apply filter_In in J. destruct J as [J J']. cbn in J' |- *.
          exists n, c. repeat split; auto. exists ds. split; [|apply mem_In'; exact J'].
          apply in_assoc; [apply (wf_dkeys _ W)|exact J].
        * intros (n' & c' & _ & _ & _ & _ & ds & A & B). exists (x, ds). split; [reflexivity|].
          apply filter_In. split; [apply assoc_in; exact A|]. cbn. apply mem_In'. exact B.
    - apply mem_false in M. exists []. split; [reflexivity|]. intros x. split; [intros []|].
      intros (n & c & I' & _). tauto. }
  rewrite (map_result_map F G).
  - cbn [bind]. eexists. split; [reflexivity|]. intros x. rewrite in_concat. split.
    + intros (r & R & X). apply in_map_iff in R. destruct R as ([y m] & R & J).
      apply in_map_iff in J. destruct J as (e & [= <- <-] & J).
      destruct (K e J) as (r' & E & S). unfold G in R. rewrite E in R. subst r'.
      apply S in X. destruct X as (n & c & X). exists e, n, c. tauto.
    + intros (e & n & c & J & X). destruct (K e J) as (r & E & S). exists r. split.
      * apply in_map_iff. exists (fst e, fm e). split; [unfold G; rewrite E; reflexivity|].
        apply in_map_iff. eauto.
      * apply S. eauto.
  - intros y Y. apply in_map_iff in Y. destruct Y as (e & <- & J).
    destruct (K e J) as (r & E & _). unfold G. rewrite E. reflexivity.
Qed.

Lemma as_kwargs_ok cm : wf_cm cm ->
  exists kw, as_kwargs cm = Ok kw /\ map fst kw = map fst (cm_coords cm) /\
    forall n, assoc n kw = match assoc n (cm_coords cm), assoc n (cm_dmap cm) with
                           | Some m, Some ds => Some (KTuple ds (VCoord m)) | _, _ => None end.
Proof.
  intros W. unfold as_kwargs.
  set (dsf := fun n => match assoc n (cm_dmap cm) with Some ds => ds | None => [] end).
  exists (map (fun e => (fst e, KTuple (dsf (fst e)) (VCoord (snd e)))) (cm_coords cm)).
  assert (X : forall n m, assoc n (cm_coords cm) = Some m -> assoc n (cm_dmap cm) = Some (dsf n)).
  { intros n m E. destruct (wf_lookup cm n m W E) as (ds & D & _). unfold dsf. rewrite D. reflexivity. }
  split; [|split].
  - apply map_result_map. intros [n m] I. apply (in_assoc _ _ _ (wf_ckeys _ W)) in I.
    cbn [fst snd]. rewrite (X n m I). reflexivity.
  - rewrite map_map. apply map_ext. reflexivity.
  - intros n. rewrite (assoc_map (fun e => KTuple (dsf (fst e)) (VCoord (snd e)))).
    destruct (assoc n (cm_coords cm)) as [m|] eqn:E; [|reflexivity]. rewrite (X n m E). reflexivity.
Qed.

Lemma assoc_filter_none kw n : NoDup (map fst kw) -> In n (nones kw) <-> assoc n kw = Some KNone.
Proof.
  intros D. unfold nones. rewrite in_map_iff. split.
  - intros ([x v] & <- & I). apply filter_In in I. destruct I as [I N]. cbn.
    apply in_assoc; [exact D|]. destruct v; try discriminate. exact I.
  - intros E. exists (n, KNone). split; [reflexivity|]. apply filter_In. split; [apply assoc_in; exact E|reflexivity].
Qed.

Lemma cm_update_gen cm kw fm fd fnew (dims' := filter (fun x => negb (mem x (nones kw)))
    (cm_dims cm ++ map fst (filter fnew (adds kw)))) :
  wf_cm cm -> NoDup (map fst kw) ->
  (forall e, In e kw -> limit_key (cm_dims cm) (fst e) = false) ->
  (forall e, In e kw -> is_none e = false -> coord_item (cm_dims cm) e = Ok (fm e, fd e, fnew e)) ->
  (forall e, In e kw -> is_none e = false -> In (fst e) (cm_dims cm) ->
     zlen (fd e) = 1 /\ exists n, m_len (fm e) = Ok n) ->
  (forall e, In e kw -> is_none e = false -> coord_item dims' e = Ok (fm e, fd e, false)) ->
  exists C D, cm_update cm kw = build_cm dims' C D /\
    NoDup (map fst C) /\ NoDup (map fst D) /\ (forall n, In n (map fst C) <-> In n (map fst D)) /\
    (forall n v, assoc n kw = Some v -> v <> KNone ->
       assoc n C = Some (fm (n, v)) /\ assoc n D = Some (fd (n, v))) /\
    (forall n, (assoc n kw = None \/ assoc n kw = Some KNone) -> lost cm kw fm n ->
       assoc n C = None /\ assoc n D = None) /\
    (forall n, assoc n kw = None -> ~ lost cm kw fm n ->
       assoc n C = option_map recf (assoc n (cm_coords cm)) /\
       assoc n D = assoc n (cm_dmap cm)).
Proof.
  intros W ND NL I1 I2 I3. unfold cm_update.
  assert (filter (fun e => limit_key (cm_dims cm) (fst e)) kw = []) as ->.
  { clear - NL. induction kw as [|e t IH]; cbn; [reflexivity|]. rewrite (NL e (or_introl eq_refl)).
    apply IH. intros x X. apply NL. right; exact X. }
  assert (filter (fun e => negb (limit_key (cm_dims cm) (fst e))) kw = kw) as ->.
  { clear - NL. induction kw as [|e t IH]; cbn; [reflexivity|]. rewrite (NL e (or_introl eq_refl)).
    cbn. f_equal. apply IH. intros x X. apply NL. right; exact X. }
  cbv zeta. change (map fst (filter is_none kw)) with (nones kw).
  change (filter (fun e => negb (is_none e)) kw) with (adds kw).
  assert (AD : forall e, In e (adds kw) <-> In e kw /\ is_none e = false).
  { intros e. unfold adds. rewrite filter_In, negb_true_iff. tauto. }
  assert (NA : NoDup (map fst (adds kw))) by (apply NoDup_keys_filter'; exact ND).
  rewrite (coord_dim_map_ok _ _ fm fd fnew); [|intros e E; apply AD in E; apply I1; tauto|exact NA].
  cbn [bind].
  destruct (dim_change_drop_ok cm (adds kw) fm fd W NA) as (L & EL & SL).
  { intros e E. apply AD in E. apply I2; tauto. }
  rewrite EL. cbn [bind].
  destruct (drop_coords_spec cm (nones kw ++ L) W) as (cm1 & E1 & W1 & D1 & C1 & M1').
  rewrite E1. cbn [bind fst].
  destruct (as_kwargs_ok cm1 W1) as (base & EB & KB & AB). rewrite EB. cbn [bind apply_limits fold_left].
  set (out := set_all (adds kw) base).
  assert (LS : forall n, droppedb cm (nones kw ++ L) n = true <-> lost cm kw fm n).
  { intros n. rewrite droppedb_spec. unfold dropped, lost.
    assert (CH : forall d, In d (cm_dims cm) -> (In d L <-> changed cm kw fm d)).
    { intros d J. rewrite SL. unfold changed. split.
      - intros (e & k & c & X1 & X2 & X3 & X4 & X5 & ds & X6 & X7). apply AD in X1.
        destruct (wf_dim_coord cm d W J) as (c' & _ & _ & D'). rewrite D' in X6. injection X6 as <-.
        destruct X7 as [X7|[]]. exists e, k, c. rewrite X7 in *. repeat split; tauto || auto.
      - intros (e & k & c & X1 & X2 & X3 & X4 & X5 & X6 & X7). subst d.
        destruct (wf_dim_coord cm _ W J) as (c' & _ & _ & D'). exists e, k, c.
        repeat split; auto; [apply AD; auto|]. exists [fst e]. cbn; auto. }
    split.
    - intros [H|(ds & d & A & B & H)]; apply in_app_iff in H; destruct H as [H|H]; auto.
      + apply SL in H. destruct H as (e & k & c & X1 & X2 & X3 & X4 & X5 & ds & X6 & X7).
        apply AD in X1. right. exists ds, (fst e). split; [exact X6|]. split; [exact X7|]. right.
        exists e, k, c. tauto.
      + right. exists ds, d. auto.
      + right. exists ds, d. split; [exact A|]. split; [exact B|]. right. apply CH; [|exact H].
        destruct (con_coord _ (wf_con _ W) n ds A) as (m & _ & X & _). auto.
    - intros [H|(ds & d & A & B & [H|H])].
      + left. apply in_app_iff. auto.
      + right. exists ds, d. rewrite in_app_iff. auto.
      + right. exists ds, d. split; [exact A|]. split; [exact B|]. apply in_app_iff. right.
        apply CH; [|exact H]. destruct (con_coord _ (wf_con _ W) n ds A) as (m & _ & X & _). auto. }
  assert (NO : NoDup (map fst out)).
  { apply set_all_NoDup. rewrite KB. apply (wf_ckeys _ W1). }
  assert (AO : forall n, assoc n out = match assoc n (adds kw) with
      | Some v => Some v
      | None => match assoc n (cm_coords cm1), assoc n (cm_dmap cm1) with
                | Some m, Some ds => Some (KTuple ds (VCoord m)) | _, _ => None end end).
  { intros n. unfold out. rewrite set_all_assoc by exact NA. rewrite AB. reflexivity. }
  (* kept coordinates live on remaining dimensions *)
  assert (KEEP : forall n m ds, assoc n (cm_coords cm1) = Some m -> assoc n (cm_dmap cm1) = Some ds ->
     coord_item dims' (n, KTuple ds (VCoord m)) = Ok (recf m, ds, false)).
  { intros n m ds A B. destruct (con_coord _ (wf_con _ W1) n ds B) as (m' & A' & S & _).
    assert (S' : forall d, In d ds -> In d dims').
    { intros d J. apply S in J. rewrite D1 in J. apply filter_In in J. destruct J as [J J'].
      unfold dims'. apply filter_In. split; [apply in_app_iff; auto|].
      apply negb_true_iff in J'. apply negb_true_iff. apply mem_false in J'. apply mem_false. intros X. apply J'.
      apply in_app_iff. auto. }
    destruct (coord_item_tuple dims' n ds m) as (m'' & R & Wm & Sh & E).
    - apply wf_okm, (wf_vals _ W1 _ _ A).
    - auto.
    - rewrite E. unfold recf. rewrite R. f_equal. f_equal.
      destruct (strs_eqb ds [n]) eqn:Q; [|reflexivity]. apply strs_eqb_eq in Q. subst ds.
      rewrite (proj2 (mem_In' n dims')); [reflexivity|]. apply S'. cbn; auto. }
  set (gm := fun e : string * kval => match coord_item dims' e with Ok (m, _, _) => m | Err _ => MNP [] end).
  set (gd := fun e : string * kval => match coord_item dims' e with Ok (_, ds, _) => ds | Err _ => [] end).
  assert (GA : forall n v, assoc n (adds kw) = Some v -> gm (n, v) = fm (n, v) /\ gd (n, v) = fd (n, v) /\
      coord_item dims' (n, v) = Ok (fm (n, v), fd (n, v), false)).
  { intros n v E. apply assoc_in in E. apply AD in E. destruct E as [E1' E2].
    unfold gm, gd. rewrite (I3 _ E1' E2). auto. }
  assert (ALL : forall e, In e out -> coord_item dims' e = Ok (gm e, gd e, false)).
  { intros [n v] J. apply (in_assoc _ _ _ NO) in J. rewrite AO in J.
    destruct (assoc n (adds kw)) as [v'|] eqn:Q.
    - injection J as <-. destruct (GA _ _ Q) as (-> & -> & X). exact X.
    - destruct (assoc n (cm_coords cm1)) as [m|] eqn:Am; [|discriminate].
      destruct (assoc n (cm_dmap cm1)) as [ds|] eqn:Ad; [|discriminate]. injection J as <-.
      unfold gm, gd. rewrite (KEEP n m ds Am Ad). reflexivity. }
  unfold get_cm. fold dims'. rewrite (coord_dim_map_ok dims' out gm gd (fun _ => false) ALL NO). cbn [bind].
  assert (filter (fun _ : string * kval => false) out = []) as ->.
  { clear. induction out; cbn; auto. }
  cbn [map]. rewrite app_nil_r.
  eexists _, _. split.
  { reflexivity. }
  rewrite !map_map. cbn [fst].
  split; [exact NO|]. split; [exact NO|]. split; [reflexivity|].
  assert (KN : forall n v, assoc n kw = Some v -> v <> KNone -> assoc n (adds kw) = Some v).
  { intros n v E N. apply in_assoc; [exact NA|]. apply AD. split; [apply assoc_in; exact E|].
    destruct v; try reflexivity. congruence. }
  assert (KX : forall n, assoc n kw = None \/ assoc n kw = Some KNone -> assoc n (adds kw) = None).
  { intros n H. apply assoc_None. intros J. apply in_map_iff in J. destruct J as ([n' v] & E & J).
    cbn in E. subst n'. apply AD in J. destruct J as [J J'].
    apply (in_assoc _ _ _ ND) in J. destruct H as [H|H]; [congruence|].
    rewrite J in H. injection H as ->. discriminate. }
  split; [|split].
  - intros n v E N. pose proof (KN n v E N) as Q. destruct (GA _ _ Q) as (X & Y & _).
    rewrite (assoc_map gm), (assoc_map gd), AO, Q, X, Y. auto.
  - intros n H LO. pose proof (KX n H) as Q. apply LS in LO.
    rewrite (assoc_map gm), (assoc_map gd), AO, Q, C1, LO. auto.
  - intros n H LO. pose proof (KX n (or_introl H)) as Q.
    assert (droppedb cm (nones kw ++ L) n = false) as LO'.
    { apply not_true_is_false. rewrite LS. exact LO. }
    rewrite (assoc_map gm), (assoc_map gd), AO, Q.
    destruct (assoc n (cm_coords cm1)) as [m|] eqn:Am.
    + pose proof Am as Am'. rewrite C1, LO' in Am'. rewrite Am'.
      destruct (wf_lookup cm n m W Am') as (ds & Dd & _).
      pose proof (M1' n) as Ad. rewrite LO', Dd in Ad. rewrite Ad.
      unfold gm, gd. rewrite (KEEP n m ds Am Ad). rewrite Dd. auto.
    + rewrite C1, LO' in Am. rewrite Am. split; [reflexivity|].
      destruct (assoc n (cm_dmap cm)) as [ds|] eqn:Ad; [|reflexivity].
      destruct (con_coord _ (wf_con _ W) n ds Ad) as (m & A & _). congruence.
Qed.

(** Update that gives every coordinate a new value. *)
Definition fits (new : list (string * mcoord)) (ds : list string) (s : list Z) : Prop :=
  Forall2 (fun d k => exists c, assoc d new = Some (M1 c) /\ c_len c = k) ds s.

Definition fmC (e : string * kval) : mcoord :=
  match snd e with KTuple _ (VCoord m) => recf m | _ => MNP [] end.
Definition fdC (e : string * kval) : list string :=
  match snd e with KTuple ds _ => ds | _ => [] end.

Lemma recf_M1 c : okc c -> exists c', recf (M1 c) = M1 c' /\ c_len c' = c_len c /\ wf_coord c'.
Proof.
  intros H. destruct (recoord_1 c H) as (c' & E & W & L & _). exists c'. unfold recf. rewrite E. auto.
Qed.

Lemma cm_update_all cm new : wf_cm cm -> plain_names cm ->
  (forall x, In x (map fst new) <-> In x (map fst (cm_coords cm))) -> NoDup (map fst new) ->
  (forall n m, assoc n new = Some m -> okm m) ->
  (forall d, In d (cm_dims cm) -> exists c, assoc d new = Some (M1 c)) ->
  (forall n m ds, assoc n new = Some m -> assoc n (cm_dmap cm) = Some ds -> ds <> [] -> fits new ds (m_shape m)) ->
  exists kws cm', with_dims cm new = Ok kws /\ cm_update cm kws = Ok cm' /\ wf_cm cm' /\
    cm_dims cm' = cm_dims cm /\
    (forall n, assoc n (cm_dmap cm') = assoc n (cm_dmap cm)) /\
    (forall n, assoc n (cm_coords cm') = option_map recf (assoc n new)).
Proof.
  intros W PN KE ND OK DM SH.
  set (dsf := fun n => match assoc n (cm_dmap cm) with Some ds => ds | None => [] end).
  assert (X : forall n m, assoc n new = Some m -> assoc n (cm_dmap cm) = Some (dsf n) /\
     forall d, In d (dsf n) -> In d (cm_dims cm)).
  { intros n m E. assert (In n (map fst (cm_coords cm))) as J by (apply KE; apply assoc_In; eauto).
    apply assoc_In in J. destruct J as [m0 J]. destruct (wf_lookup cm n m0 W J) as (ds & D & S & _).
    unfold dsf. rewrite D. auto. }
  set (kws := map (fun e => (fst e, KTuple (dsf (fst e)) (VCoord (snd e)))) new).
  assert (E0 : with_dims cm new = Ok kws).
  { unfold with_dims, kws. apply map_result_map. intros [n m] J. apply (in_assoc _ _ _ ND) in J.
    cbn [fst snd]. destruct (X n m J) as [-> _]. reflexivity. }
  assert (KK : map fst kws = map fst new) by (unfold kws; rewrite map_map; reflexivity).
  assert (AK : forall n, assoc n kws = option_map (fun m => KTuple (dsf n) (VCoord m)) (assoc n new)).
  { intros n. unfold kws. rewrite (assoc_map (fun e => KTuple (dsf (fst e)) (VCoord (snd e)))).
    destruct (assoc n new); reflexivity. }
  assert (IN : forall e, In e kws -> exists m, assoc (fst e) new = Some m /\ e = (fst e, KTuple (dsf (fst e)) (VCoord m))).
  { intros [n v] J. apply in_assoc in J; [|rewrite KK; exact ND]. rewrite AK in J. cbn [fst].
    destruct (assoc n new) as [m|]; [|discriminate]. injection J as <-. eauto. }
  assert (NN : nones kws = []).
  { unfold nones. assert (forall e, In e kws -> is_none e = false).
    { intros e J. destruct (IN e J) as (m & _ & ->). reflexivity. }
    revert H. generalize kws. clear. induction kws as [|e t IH]; cbn; intros H; [reflexivity|].
    rewrite (H e (or_introl eq_refl)). apply IH. intros; apply H; right; assumption. }
  assert (FF : filter (fun _ : string * kval => false) (adds kws) = []).
  { generalize (adds kws). clear. induction l; cbn; auto. }
  assert (DI : filter (fun x => negb (mem x (nones kws)))
     (cm_dims cm ++ map fst (filter (fun _ : string * kval => false) (adds kws))) = cm_dims cm).
  { rewrite FF, NN. cbn [map]. rewrite app_nil_r. generalize (cm_dims cm). clear. intros l. induction l; cbn in *; congruence. }
  assert (CI : forall e, In e kws -> coord_item (cm_dims cm) e = Ok (fmC e, fdC e, false)).
  { intros e J. destruct (IN e J) as (m & E & Ee). destruct (X _ _ E) as [Dn Sn].
    destruct (coord_item_tuple (cm_dims cm) (fst e) (dsf (fst e)) m (OK _ _ E) (or_introl Sn))
      as (m' & R & _ & _ & C). rewrite Ee at 1. rewrite C.
    replace (fmC e) with m' by (rewrite Ee; unfold fmC, recf; cbn [snd]; rewrite R; reflexivity).
    replace (fdC e) with (dsf (fst e)) by (rewrite Ee; reflexivity).
    f_equal. f_equal. destruct (strs_eqb (dsf (fst e)) [fst e]) eqn:Q; [|reflexivity].
    apply strs_eqb_eq in Q. rewrite (proj2 (mem_In' _ _)); [reflexivity|]. apply Sn. rewrite Q. cbn; auto. }
  destruct (cm_update_gen cm kws fmC fdC (fun _ => false)) as (C & D & EU & NC & ND' & KCD & H1 & H2 & H3).
  - exact W.
  - rewrite KK. exact ND.
  - intros e J. apply PN. apply KE. rewrite <- KK. apply in_map. exact J.
  - intros e J _. apply CI. exact J.
  - intros e J _ I. destruct (IN e J) as (m & E & Ee). destruct (DM _ I) as [c Ec].
    rewrite E in Ec. injection Ec as ->. destruct (wf_dim_coord cm _ W I) as (c0 & _ & _ & Dd).
    destruct (X _ _ E) as [Dn _]. rewrite Dd in Dn. injection Dn as Dn. rewrite Ee. unfold fdC, fmC. cbn [snd].
    split; [rewrite <- Dn; reflexivity|]. destruct (recf_M1 c (OK _ _ E)) as (c' & -> & _ & _).
    cbn. eauto.
  - intros e J _. rewrite DI. apply CI. exact J.
  - rewrite DI in EU.
    assert (LC : forall n, assoc n C = option_map recf (assoc n new)).
    { intros n. destruct (assoc n new) as [m|] eqn:E.
      - destruct (H1 n (KTuple (dsf n) (VCoord m))) as [-> _]; [rewrite AK, E; reflexivity|discriminate|].
        reflexivity.
      - cbn. assert (~ In n (map fst (cm_coords cm))) as Q.
        { intros J. apply KE in J. apply assoc_In in J. destruct J; congruence. }
        assert (Kn : assoc n kws = None) by (rewrite AK, E; reflexivity).
        assert (Dn : assoc n (cm_dmap cm) = None).
        { apply assoc_None. rewrite <- (wf_keys_iff cm W). exact Q. }
        destruct (H3 n Kn) as [-> _].
        + intros [J|(ds & d & J & _)]; [rewrite NN in J; exact J|congruence].
        + rewrite (proj2 (assoc_None _ _) Q). reflexivity. }
    assert (LD : forall n, assoc n D = assoc n (cm_dmap cm)).
    { intros n. destruct (assoc n new) as [m|] eqn:E.
      - destruct (H1 n (KTuple (dsf n) (VCoord m))) as [_ ->]; [rewrite AK, E; reflexivity|discriminate|].
        destruct (X n m E) as [-> _]. reflexivity.
      - assert (~ In n (map fst (cm_coords cm))) as Q.
        { intros J. apply KE in J. apply assoc_In in J. destruct J; congruence. }
        assert (Dn : assoc n (cm_dmap cm) = None).
        { apply assoc_None. rewrite <- (wf_keys_iff cm W). exact Q. }
        destruct (H3 n) as [_ ->]; [rewrite AK, E; reflexivity| |reflexivity].
        intros [J|(ds & d & J & _)]; [rewrite NN in J; exact J|congruence]. }
    assert (W' : wf_cm (mkCm (cm_dims cm) C D)).
    { split; cbn; auto.
      - split; cbn.
        + intros d I. destruct (DM d I) as [c E]. destruct (recf_M1 c (OK _ _ E)) as (c' & R & _ & _).
          rewrite LC, E, LD. cbn. rewrite R. split; [eauto|]. apply (con_dim _ (wf_con _ W) d I).
        + intros n ds E. rewrite LD in E. destruct (con_coord _ (wf_con _ W) n ds E) as (m0 & A & S & _).
          assert (In n (map fst new)) as J by (apply KE, assoc_In; eauto).
          apply assoc_In in J. destruct J as [m J]. exists (recf m). rewrite LC, J.
          split; [reflexivity|]. split; [exact S|].
          destruct ds as [|d0 ds]; [left; reflexivity|right].
          destruct (recf_spec m (OK _ _ J)) as (_ & -> & _).
          pose proof (SH n m _ J E ltac:(discriminate)) as F. eapply Forall2_impl; [|exact F].
          cbn. intros d k (c & Ec & Lc). destruct (recf_M1 c (OK _ _ Ec)) as (c' & R & L' & _).
          exists c'. rewrite LC, Ec. cbn. rewrite R. split; [reflexivity|congruence].
      - apply (wf_dims _ W).
      - intros n. apply KCD.
      - intros n ds E. rewrite LD in E. apply (wf_distinct _ W _ _ E).
      - intros n m E. rewrite LC in E. destruct (assoc n new) as [m0|] eqn:J; [|discriminate].
        injection E as <-. apply recf_spec. apply (OK _ _ J). }
    exists kws, (mkCm (cm_dims cm) C D). split; [exact E0|]. split; [rewrite EU; apply build_wf; exact W'|].
    split; [exact W'|]. cbn. auto.
Qed.
