(** Lemmas behind CmProps.v: indexing the coordinates of a manager, one pass of
    select / order. *)
From Verif Require Import Base BaseFacts CoordModel CoordSpec CoordProofs CoordProofs2 CoordProofs3
  CoordProofs4 NdModel NdSpec NdProofs NdProofs2 FrameModel FrameProofs5 ChunkModel CmModel CmSpec
  CmProofs CmProofs2.
From Coq Require Import Strings.String ZifyBool Sorting.Permutation Sorting.Sorted.
Ltac Zify.zify_post_hook ::= Z.div_mod_to_equations.
Local Open Scope Z_scope.
Local Open Scope list_scope.

(** ** Carried coordinates *)
Lemma carried_shape m m' pss : okm m' -> carried m m' pss -> m_shape m' = map zlen pss.
Proof.
  destruct m as [c|k a|s]; cbn [carried].
  - intros K (c' & ps & -> & -> & H). cbn [m_shape map]. f_equal. cbn [okm] in K.
    destruct c; cbn [carried1] in H; try (destruct H as (vs & G & R & _);
      rewrite <- (c_len_values c' K), R; apply (gather_some_len _ _ _ G)).
    subst c'. reflexivity.
  - destruct (size (map zlen pss) =? 0).
    + intros _ ->. reflexivity.
    + intros _ (b & -> & P). apply P.
  - intros _ [-> _]. reflexivity.
Qed.

Lemma carried_refl m : wf_mcoord m -> carried m m (full (m_shape m)).
Proof.
  destruct m as [c|k a|s]; cbn [carried wf_mcoord m_shape].
  - intros W. exists c, (zrange (c_len c)). split; [reflexivity|]. split; [reflexivity|].
    pose proof (c_len_nonneg c W) as N. pose proof (wf_okc c W) as K.
    assert (Q : concrete c -> exists vs, gather (c_ints c) (zrange (c_len c)) = Some vs /\ represents c vs).
    { intros C. exists (c_ints c). rewrite <- (c_ints_len c K C). rewrite gather_zrange.
      split; [reflexivity|]. apply represents_exact. apply concrete_values. exact C. }
    destruct c; cbn [carried1]; try (apply Q; exact I). cbn [c_len].
    rewrite zlen_zrange. f_equal. cbn [c_len] in N. lia.
  - intros (W & N & P). pose proof W as [F _]. rewrite (map_zlen_full _ F).
    destruct (Z.eqb_spec (size (nd_shape a)) 0); [lia|]. exists a. split; [reflexivity|].
    apply nd_picked_full. exact W.
  - intros [F N]. rewrite (map_zlen_full _ F). split; [reflexivity|apply full_in].
Qed.

Lemma carried_recf m m' pss : okm m' -> carried m m' pss -> carried m (recf m') pss.
Proof.
  intros K. destruct m as [c|k a|s]; cbn [carried].
  - intros (c' & ps & -> & -> & H). cbn [okm] in K. destruct (recoord_1 c' K) as (c2 & E & R).
    unfold recf. rewrite E. exists c2, ps. split; [reflexivity|]. split; [reflexivity|].
    destruct R as (_ & _ & _ & P & C).
    destruct c; cbn [carried1] in *; try (destruct H as (vs & G & H); exists vs; split; [exact G|apply C; exact H]).
    apply (P _ H).
  - destruct (Z.eqb_spec (size (map zlen pss)) 0).
    + intros ->. reflexivity.
    + intros (b & -> & P). exists b. split; [|exact P]. unfold recf. cbn [recoord].
      unfold get_coord_nd. destruct P as (_ & S & _). rewrite S.
      destruct (Z.eqb_spec (size (map zlen pss)) 0); [contradiction|reflexivity].
  - intros [-> F]. split; [reflexivity|exact F].
Qed.

(** ** Indexing one axis of a coordinate *)
Lemma Forall_put {A} (P : A -> Prop) l n x : Forall P l -> P x -> Forall P (put l n x).
Proof. intros F X. revert n. induction F; intros [|n]; cbn; constructor; auto. Qed.

Lemma gather_zrange_id n ps : (forall p, In p ps -> 0 <= p < n) -> gather (zrange n) ps = Some ps.
Proof.
  induction ps as [|p t IH]; intros B; cbn [gather]; [reflexivity|].
  rewrite znth_zrange_in by (apply B; left; reflexivity).
  rewrite IH by (intros; apply B; right; assumption). reflexivity.
Qed.

Lemma size_put_zero s ax n x : nth_error s ax = Some n -> n <> 0 -> size s = 0 -> size (put s ax x) = 0.
Proof.
  revert ax. induction s as [|y s IH]; intros [|ax]; cbn [nth_error]; try discriminate.
  - intros [= ->] N. cbn [put]. rewrite !size_cons. intros Z0. apply Z.mul_eq_0 in Z0.
    destruct Z0 as [Z0|Z0]; [contradiction|]. rewrite Z0. apply Z.mul_0_r.
  - intros E N. cbn [put]. rewrite !size_cons. intros Z0. apply Z.mul_eq_0 in Z0. destruct Z0 as [Z0|Z0]; [rewrite Z0; reflexivity|].
    rewrite (IH ax E N Z0). apply Z.mul_0_r.
Qed.
Lemma size_nth_pos s ax n : Forall (fun n => 0 <= n) s -> nth_error s ax = Some n -> 0 < size s -> 0 < n.
Proof.
  intros F. revert ax. induction F as [|y s H F IH]; intros [|ax]; cbn [nth_error]; try discriminate.
  - intros [= ->]. rewrite size_cons. intros Q. destruct (Z.eq_dec n 0) as [->|]; lia.
  - rewrite size_cons. intros E Q. apply (IH ax E). destruct (Z.lt_ge_cases 0 (size s)); [assumption|].
    pose proof (Z.mul_nonneg_nonpos y (size s) H ltac:(lia)). lia.
Qed.

Lemma okm_get_coord_nd k (b : nd Z) : wf_nd b -> List.length (nd_shape b) <> 1%nat -> okm (get_coord_nd k b).
Proof. intros W N. apply wf_okm. apply get_coord_nd_spec; assumption. Qed.

(** A coordinate not yet restricted along [ax] is restricted there. *)
Lemma mc_index_carried m m' P ax ix n ps : wf_mcoord m -> okm m' -> carried m m' P ->
  (forall c, m = M1 c -> m' = m) ->
  nth_error (m_shape m) ax = Some n -> 0 <= n -> nth_error P ax = Some (zrange n) ->
  indexer_positions n ix = Some ps ->
  exists m2, mc_index m' ax ix = Ok m2 /\ okm m2 /\ carried m m2 (put P ax ps).
Proof.
  intros W K C U N Nn F E. pose proof (carried_shape _ _ _ K C) as SH.
  assert (B : forall p, In p ps -> 0 <= p < n) by (apply (indexer_positions_in_range _ _ _ Nn E)).
  pose proof (gather_zrange_id n ps B) as G.
  destruct m as [c|k a|s].
  - specialize (U c eq_refl). subst m'. cbn [m_shape] in N. destruct C as (c' & q & [= <-] & -> & C).
    destruct ax as [|ax]; [|destruct ax; discriminate]. cbn in N. injection N as <-. cbn [put].
    cbn [wf_mcoord] in W. pose proof (wf_okc c W) as Kc.
    assert (Q : concrete c -> exists m2, match np_index (c_ints c) ix with
             | Some w => do c' <- get_coord_data (c_kind c) w; Ok (M1 c')
             | None => Err IndexError end = Ok m2 /\ okm m2 /\
        exists c' vs, m2 = M1 c' /\ gather (c_ints c) ps = Some vs /\ represents c' vs).
    { intros Cc. rewrite <- (c_ints_len c Kc Cc) in E. destruct (np_index_ok _ _ _ E) as (w & -> & Gw).
      destruct (get_coord_represents (c_kind c) w) as (c2 & -> & R & W2). cbn [bind].
      exists (M1 c2). split; [reflexivity|]. split; [apply wf_okc; exact W2|]. exists c2, w. auto. }
    destruct c as [r|kk v|kk v|m].
    4:{ cbn [mc_index c_len] in *. rewrite E. eexists. split; [reflexivity|]. split; [cbn; apply zlen_nonneg|].
        cbn [carried]. exists (CPart (zlen ps)), ps. split; [reflexivity|]. split; reflexivity. }
    all: destruct (Q I) as (m2 & E2 & K2 & c2 & vs & -> & Gv & R); exists (M1 c2);
      (split; [exact E2|]); (split; [exact K2|]); cbn [carried]; exists c2, ps;
      (split; [reflexivity|]); (split; [reflexivity|]); cbn [carried1]; eauto.
  - destruct W as (Wa & Na & Pa). cbn [m_shape] in N.
    pose proof (size_nth_pos _ _ _ (proj1 Wa) N Pa) as Pn.
    cbn [carried] in C |- *. destruct (Z.eqb_spec (size (map zlen P)) 0) as [Z|Z].
    + subst m'. cbn [mc_index].
      assert (F' : nth_error (map zlen P) ax = Some n).
      { rewrite nth_error_map, F. cbn. rewrite zlen_zrange. f_equal. lia. }
      rewrite F', E. exists (MNP (put (map zlen P) ax (zlen ps))). split; [reflexivity|].
      destruct K as [K1 K2]. split.
      * split; [apply Forall_put; [exact K1|apply zlen_nonneg]|]. rewrite put_length. exact K2.
      * rewrite put_map. rewrite (size_put_zero _ _ _ (zlen ps) F') by lia. cbn. reflexivity.
    + destruct C as (b & -> & Pb). destruct K as [Kb1 Kb2]. cbn [m_shape] in SH.
      assert (F' : nth_error (nd_shape b) ax = Some n).
      { rewrite SH, nth_error_map, F. cbn. rewrite zlen_zrange. f_equal. lia. }
      destruct (nd_index_picked b ax ix n ps Kb1 F' E B) as (b2 & E2 & P2).
      cbn [mc_index]. rewrite E2. exists (get_coord_nd k b2). split; [reflexivity|].
      pose proof (nd_picked_compose _ _ _ _ _ Pb P2) as P3. rewrite SH in P3.
      rewrite (compose_put P ax ps (zrange n) ps F G) in P3.
      destruct P3 as (W2 & S2 & R2).
      split.
      { apply okm_get_coord_nd; [exact W2|]. rewrite S2, map_length, put_length.
        rewrite SH, map_length in Kb2. exact Kb2. }
      unfold get_coord_nd. rewrite S2. destruct (Z.eqb_spec (size (map zlen (put P ax ps))) 0); [reflexivity|].
      exists b2. split; [reflexivity|]. split; [exact W2|]. split; [exact S2|exact R2].
  - cbn [carried] in C |- *. destruct C as [-> C]. cbn [mc_index].
    assert (F' : nth_error (map zlen P) ax = Some n).
    { rewrite nth_error_map, F. cbn. rewrite zlen_zrange. f_equal. lia. }
    rewrite F', E. eexists. split; [reflexivity|]. destruct K as [K1 K2]. split.
    + split; [apply Forall_put; [exact K1|apply zlen_nonneg]|]. rewrite put_length. exact K2.
    + rewrite put_map. split; [reflexivity|]. apply (Forall2_put _ _ _ _ _ n C N). exact B.
Qed.

(** ** One pass of select / order *)
Definition answers (op : coord -> selarg -> result (coord * indexer)) (c : coord) (arg : selarg)
  (ps : list Z) : Prop :=
  exists c' ix, op c arg = Ok (c', ix) /\ indexer_positions (c_len c) ix = Some ps /\
    okc c' /\ carried1 c c' ps.

Definition upd {A} (f : string -> A) (k : string) (v : A) : string -> A :=
  fun x => if String.eqb x k then v else f x.
Lemma upd_same {A} (f : string -> A) k v : upd f k v k = v.
Proof. unfold upd. rewrite String.eqb_refl. reflexivity. Qed.
Lemma upd_other {A} (f : string -> A) k v x : x <> k -> upd f k v x = f x.
Proof. unfold upd. intros N. destruct (String.eqb_spec x k); [contradiction|reflexivity]. Qed.

Lemma map_upd_notin {A} (f : string -> A) k v l : ~ In k l -> map (upd f k v) l = map f l.
Proof.
  intros N. apply map_ext_in. intros a J. apply upd_other. intros ->. contradiction.
Qed.
Lemma map_upd_put {A} (f : string -> A) k v l ax : NoDup l -> nth_error l ax = Some k ->
  map (upd f k v) l = put (map f l) ax v.
Proof.
  intros N. revert ax. induction N as [|x l X N IH]; intros [|ax]; cbn [nth_error]; try discriminate.
  - intros [= ->]. cbn. rewrite upd_same. f_equal. apply map_upd_notin. exact X.
  - intros E. cbn. rewrite (IH ax E). f_equal. apply upd_other. intros ->.
    apply X. apply (nth_error_In _ _ E).
Qed.

Lemma assoc_map_key {A B} (g : string * A -> string * B) l n :
  (forall e, In e l -> fst (g e) = fst e) ->
  assoc n (map g l) = match assoc n l with Some v => Some (snd (g (n, v))) | None => None end.
Proof.
  induction l as [|[k v] t IH]; intros H; cbn [map assoc]; [reflexivity|].
  specialize (IH (fun e J => H e (or_intror J))).
  pose proof (H (k, v) (or_introl eq_refl)) as Hk. cbn [fst] in Hk.
  destruct (g (k, v)) as [k' w] eqn:G. cbn [fst] in Hk. subst k'.
  destruct (String.eqb_spec n k) as [->|]; [rewrite G; reflexivity|exact IH].
Qed.

Lemma map_result_entries {A B} (F : string * A -> result (string * B)) l :
  (forall e, In e l -> exists m, F e = Ok (fst e, m)) ->
  exists l', map_result F l = Ok l' /\ map fst l' = map fst l /\
    forall n, NoDup (map fst l) ->
      match assoc n l with
      | Some v => exists m, F (n, v) = Ok (n, m) /\ assoc n l' = Some m
      | None => assoc n l' = None
      end.
Proof.
  induction l as [|e t IH]; intros H.
  - exists []. cbn. auto.
  - destruct (H e (or_introl eq_refl)) as [m E].
    destruct (IH (fun e' J => H e' (or_intror J))) as (t' & Et & Kt & At).
    exists ((fst e, m) :: t'). cbn [map_result]. rewrite E. cbn [bind]. rewrite Et. cbn [bind].
    split; [reflexivity|]. split; [cbn; rewrite Kt; reflexivity|].
    intros n N. cbn [map] in N. inversion N as [|? ? X N']; subst.
    destruct e as [k v]. cbn [assoc fst] in *. destruct (String.eqb_spec n k) as [->|].
    + exists m. auto.
    + apply At. exact N'.
Qed.

Lemma pick0_len cm d k : dim_len cm d k -> pick0 cm d = zrange k.
Proof. intros (c & E & <-). unfold pick0. rewrite E. reflexivity. Qed.

Lemma picks0 cm n m : wf_cm cm -> assoc n (cm_coords cm) = Some m ->
  picks_of cm (pick0 cm) (own0 cm) n = full (m_shape m).
Proof.
  intros W E. destruct (wf_lookup cm n m W E) as (ds & D & _ & [->|F]); unfold picks_of; rewrite D.
  - unfold own0. rewrite E. reflexivity.
  - destruct ds as [|d ds].
    + unfold own0. rewrite E. reflexivity.
    + unfold full. clear D E. induction F as [|x k l s H F IH]; cbn [map]; [reflexivity|].
      rewrite (pick0_len _ _ _ H). f_equal. exact IH.
Qed.

Definition untouched (cm : cman) (dn dd : list string) (n : string) : Prop :=
  forall ds, assoc n (cm_dmap cm) = Some ds ->
    (ds = [] -> ~ In n dn) /\ forall d, In d ds -> ~ In d dd.

Record co_inv (cm : cman) (new : list (string * mcoord))
  (pick : string -> list Z) (own : string -> list (list Z)) (dn dd : list string) : Prop :=
  { ci_keys : map fst new = map fst (cm_coords cm);
    ci_coord : forall n m, assoc n (cm_coords cm) = Some m ->
      exists m', assoc n new = Some m' /\ okm m' /\ carried m m' (picks_of cm pick own n) /\
        (untouched cm dn dd n -> m' = m);
    ci_full : forall d k, dim_len cm d k -> ~ In d dd -> pick d = zrange k }.
Record pass_inv (cm : cman) (st : list (string * mcoord) * list (string * indexer))
  (pick : string -> list Z) (own : string -> list (list Z)) (dn dd : list string) : Prop :=
  { pi_co : co_inv cm (fst st) pick own dn dd;
    pi_red : forall d k, In d (cm_dims cm) -> dim_len cm d k ->
      exists ix, assoc d (snd st) = Some ix /\ indexer_positions k ix = Some (pick d) }.

Lemma co_init cm : wf_cm cm -> co_inv cm (cm_coords cm) (pick0 cm) (own0 cm) [] [].
Proof.
  intros W. split.
  - reflexivity.
  - intros n m E. exists m. split; [exact E|]. split; [apply wf_okm, (wf_vals _ W _ _ E)|].
    split; [|auto]. rewrite (picks0 cm n m W E). apply carried_refl. apply (wf_vals _ W _ _ E).
  - intros d k H _. apply pick0_len. exact H.
Qed.

Lemma pass_init cm : wf_cm cm ->
  pass_inv cm (cm_coords cm, map (fun d => (d, simple_slice None None)) (cm_dims cm))
    (pick0 cm) (own0 cm) [] [].
Proof.
  intros W. split; cbn [fst snd].
  - apply co_init. exact W.
  - intros d k I H. exists (simple_slice None None). split.
    + clear - I. induction (cm_dims cm) as [|x l IH]; [destruct I|]. cbn [map assoc].
      destruct (String.eqb_spec d x); [reflexivity|]. apply IH. destruct I; [congruence|assumption].
    + rewrite (pick0_len _ _ _ H). apply full_slice_positions. destruct H as (c & E & <-).
      apply c_len_nonneg. apply (wf_vals _ W _ _ E).
Qed.

Lemma wf_1d cm n c : wf_cm cm -> assoc n (cm_coords cm) = Some (M1 c) ->
  exists ds, assoc n (cm_dmap cm) = Some ds /\
    (ds = [] \/ exists d, ds = [d] /\ In d (cm_dims cm) /\ dim_len cm d (c_len c)).
Proof.
  intros W E. destruct (wf_lookup cm n _ W E) as (ds & D & S & [->|F]); exists ds + exists []; (split; [exact D|]).
  - left; reflexivity.
  - right. cbn [m_shape] in F. inversion F as [|d k ? ? H F' Q]; subst. inversion F'; subst.
    exists d. split; [reflexivity|]. split; [apply S; left; reflexivity|exact H].
Qed.

(** What an axis indexing function [g] must do. *)
Definition restricts_axis (g : mcoord -> nat -> indexer -> result mcoord) (ix : indexer) (n : Z)
  (ps : list Z) : Prop :=
  forall m m' P ax, wf_mcoord m -> okm m' -> carried m m' P -> (forall c, m = M1 c -> m' = m) ->
    nth_error (m_shape m) ax = Some n -> nth_error P ax = Some (zrange n) ->
    exists m2, g m' ax ix = Ok m2 /\ okm m2 /\ carried m m2 (put P ax ps).

Definition related (g : mcoord -> nat -> indexer -> result mcoord) (cm : cman) (dim name : string)
  (ix : indexer) (new : list (string * mcoord)) : result (list (string * mcoord)) :=
  map_result (fun e =>
    if String.eqb (fst e) name then Ok e
    else match assoc (fst e) (cm_dmap cm) with
         | None => Err KeyError
         | Some ds => match index_of dim ds with
                      | None => Ok e
                      | Some ax => do m <- g (snd e) ax ix; Ok (fst e, m) end
         end) new.

Lemma co_step cm g new pick own dn dd n0 c c' d ix ps : wf_cm cm -> co_inv cm new pick own dn dd ->
  assoc n0 (cm_coords cm) = Some (M1 c) -> assoc n0 (cm_dmap cm) = Some [d] ->
  dim_len cm d (c_len c) -> okc c' -> carried1 c c' ps -> ~ In d dd ->
  restricts_axis g ix (c_len c) ps ->
  exists new', related g cm d n0 ix (assoc_set n0 (M1 c') new) = Ok new' /\
    co_inv cm new' (upd pick d ps) own dn (d :: dd).
Proof.
  intros W I E D Ld Kc Cc ND GP.
  assert (Kn : In n0 (map fst new)).
  { rewrite (ci_keys _ _ _ _ _ _ I). apply assoc_In. eauto. }
  assert (KS : map fst (assoc_set n0 (M1 c') new) = map fst (cm_coords cm)).
  { rewrite keys_assoc_set, (proj2 (mem_In' _ _) Kn). apply (ci_keys _ _ _ _ _ _ I). }
  (* every other coordinate of the dimension can be indexed *)
  assert (ST : forall n m', n <> n0 -> assoc n new = Some m' ->
     exists m ds, assoc n (cm_coords cm) = Some m /\ assoc n (cm_dmap cm) = Some ds /\
       exists m2, match index_of d ds with
                  | None => Ok (n, m')
                  | Some ax => do m <- g m' ax ix; Ok (n, m) end = Ok (n, m2) /\
         okm m2 /\ carried m m2 (picks_of cm (upd pick d ps) own n) /\
         (untouched cm dn (d :: dd) n -> m2 = m)).
  { intros n m' Nn0 Es.
    assert (In n (map fst (cm_coords cm))) as J.
    { rewrite <- (ci_keys _ _ _ _ _ _ I). apply assoc_In. eauto. }
    apply assoc_In in J. destruct J as [m Em]. destruct (wf_lookup cm n m W Em) as (ds & Dn & Sn & Fn).
    destruct (ci_coord _ _ _ _ _ _ I n m Em) as (m'' & A1 & A2 & A3 & A4).
    rewrite Es in A1. injection A1 as <-.
    exists m, ds. split; [exact Em|]. split; [exact Dn|].
    destruct (index_of d ds) as [ax|] eqn:X.
    - apply index_of_spec in X. destruct X as [X _].
      destruct Fn as [->|Fn]; [destruct ax; discriminate|].
      assert (Nk : exists k, nth_error (m_shape m) ax = Some k /\ dim_len cm d k).
      { clear - Fn X. revert ax X. induction Fn as [|x k l s H F IH]; intros [|ax]; cbn; try discriminate.
        - intros [= ->]. eauto.
        - apply IH. }
      destruct Nk as (k & Nk & Lk).
      assert (k = c_len c) as -> by (destruct Lk as (c1 & E1 & <-); destruct Ld as (c2 & E2 & L2); congruence).
      assert (PE : picks_of cm pick own n = map pick ds /\
                   picks_of cm (upd pick d ps) own n = map (upd pick d ps) ds).
      { unfold picks_of. rewrite Dn. destruct ds; [destruct ax; discriminate|auto]. }
      destruct PE as [P1 P2]. rewrite P1 in A3. rewrite P2.
      rewrite (map_upd_put pick d ps ds ax (wf_distinct _ W _ _ Dn) X).
      destruct (GP m m' (map pick ds) ax) as (m2 & E2 & K2 & C2); auto.
      + apply (wf_vals _ W _ _ Em).
      + intros c1 ->. apply A4. intros ds' Eds. rewrite Dn in Eds. injection Eds as <-.
        cbn [m_shape] in Fn. inversion Fn as [|d1 k1 ? ? H1 F1 Q1]; subst. inversion F1; subst.
        destruct ax as [|ax]; [|destruct ax; discriminate]. cbn in X. injection X as ->.
        split; [discriminate|]. intros d2 [<-|[]]. exact ND.
      + rewrite nth_error_map, X. cbn. rewrite (ci_full _ _ _ _ _ _ I d (c_len c) Ld ND). reflexivity.
      + exists m2. rewrite E2. cbn [bind]. split; [reflexivity|]. split; [exact K2|]. split; [exact C2|].
        intros U. exfalso. destruct (U ds Dn) as [_ U2]. apply (U2 d (nth_error_In _ _ X)). left; reflexivity.
    - exists m'. split; [reflexivity|]. split; [exact A2|]. apply index_of_None in X. split.
      + unfold picks_of in *. rewrite Dn in *. destruct ds as [|d1 ds]; [exact A3|].
        rewrite (map_upd_notin pick d ps (d1 :: ds) X). exact A3.
      + intros U. apply A4. intros ds' E'. destruct (U ds' E') as [U1 U2]. split; [exact U1|].
        intros d2 J2 J3. apply (U2 d2 J2). right; exact J3. }
  set (newS := assoc_set n0 (M1 c') new) in *.
  assert (NDk : NoDup (map fst newS)) by (rewrite KS; apply (wf_ckeys _ W)).
  unfold related.
  match goal with |- context [map_result ?F newS] => destruct (map_result_entries F newS) as (l' & El & Kl & Al) end.
  { intros [n m'] J. cbn [fst snd]. destruct (String.eqb_spec n n0) as [->|N]; [eauto|].
    apply (in_assoc _ _ _ NDk) in J. unfold newS in J. rewrite assoc_assoc_set in J.
    destruct (String.eqb_spec n n0); [contradiction|].
    destruct (ST n m' N J) as (m & dsn & _ & -> & m2 & E2 & _). eauto. }
  exists l'. split; [exact El|]. split.
  - rewrite Kl. exact KS.
  - intros n m En. specialize (Al n NDk). unfold newS in Al. rewrite assoc_assoc_set in Al. cbn [fst snd] in Al.
    destruct (String.eqb n n0) eqn:Q; [apply String.eqb_eq in Q; subst n|pose proof (proj1 (String.eqb_neq _ _) Q) as N].
    + rewrite E in En. injection En as <-. destruct Al as (m1 & F1 & A1).
      injection F1 as <-. exists (M1 c'). split; [exact A1|]. split; [exact Kc|].
      split.
      * unfold picks_of. rewrite D. cbn [map]. rewrite upd_same. exists c', ps. auto.
      * intros U. exfalso. destruct (U [d] D) as [_ U2]. apply (U2 d); left; reflexivity.
    + destruct (ci_coord _ _ _ _ _ _ I n m En) as (m' & B1 & _). rewrite B1 in Al.
      destruct Al as (m1 & F1 & A1).
      destruct (ST n m' N B1) as (m0 & dsn & Em0 & Dn & m2 & E2 & K2 & C2 & U2).
      rewrite En in Em0. injection Em0 as <-. rewrite Dn in F1. rewrite E2 in F1. injection F1 as <-.
      exists m2. auto.
  - intros d1 k H1 N1. assert (d1 <> d) by (intros ->; apply N1; left; reflexivity).
    rewrite upd_other by assumption. apply (ci_full _ _ _ _ _ _ I d1 k H1). intros J. apply N1. right; exact J.
Qed.

Lemma pass_step cm op st e pick own dn dd c ps : wf_cm cm -> pass_inv cm st pick own dn dd ->
  assoc (fst e) (cm_coords cm) = Some (M1 c) -> answers op c (snd e) ps ->
  (forall d, assoc (fst e) (cm_dmap cm) = Some [d] -> ~ In d dd) ->
  exists st', select_one cm op st e = Ok st' /\
    match assoc (fst e) (cm_dmap cm) with
    | Some (d :: _) => pass_inv cm st' (upd pick d ps) own dn (d :: dd)
    | _ => pass_inv cm st' pick (upd own (fst e) [ps]) (fst e :: dn) dd
    end.
Proof.
  intros W I E (c' & ix & Eo & Ep & Kc & Cc) ND. destruct e as [n0 arg]. cbn [fst snd] in *.
  destruct (wf_1d cm n0 c W E) as (ds & D & Hds).
  unfold select_one. cbn [fst snd]. rewrite E, D, Eo. cbn [bind fst snd].
  pose proof (pi_co _ _ _ _ _ _ I) as CI.
  assert (Kn : In n0 (map fst (fst st))).
  { rewrite (ci_keys _ _ _ _ _ _ CI). apply assoc_In. eauto. }
  assert (KS : map fst (assoc_set n0 (M1 c') (fst st)) = map fst (cm_coords cm)).
  { rewrite keys_assoc_set, (proj2 (mem_In' _ _) Kn). apply (ci_keys _ _ _ _ _ _ CI). }
  destruct Hds as [->|(d & -> & Id & Ld)].
  - eexists. split; [reflexivity|]. split; cbn [fst snd]; [split|].
    + exact KS.
    + intros n m En. rewrite assoc_assoc_set. destruct (String.eqb_spec n n0) as [->|N].
      * rewrite E in En. injection En as <-. exists (M1 c'). split; [reflexivity|]. split; [exact Kc|].
        split.
        -- unfold picks_of. rewrite D, upd_same. exists c', ps. auto.
        -- intros U. destruct (U [] D) as [U1 _]. exfalso. apply U1; [reflexivity|left; reflexivity].
      * destruct (ci_coord _ _ _ _ _ _ CI n m En) as (m' & A1 & A2 & A3 & A4). exists m'.
        split; [exact A1|]. split; [exact A2|]. split.
        -- unfold picks_of in *. destruct (assoc n (cm_dmap cm)) as [[|? ?]|]; rewrite ?upd_other by exact N; exact A3.
        -- intros U. apply A4. intros ds' E'. destruct (U ds' E') as [U1 U2]. split; [|exact U2].
           intros Q J. apply U1; [exact Q|right; exact J].
    + apply (ci_full _ _ _ _ _ _ CI).
    + apply (pi_red _ _ _ _ _ _ I).
  - specialize (ND d D).
    assert (Nn : 0 <= c_len c) by (apply c_len_nonneg; apply (wf_vals _ W _ _ E)).
    destruct (co_step cm mc_index (fst st) pick own dn dd n0 c c' d ix ps W CI E D Ld Kc Cc ND) as (new' & El & CI').
    { intros m m' P ax Wm Km Cm Um Nm Pm. apply (mc_index_carried m m' P ax ix (c_len c) ps); auto. }
    change (indirect_updates cm d n0 ix) with (related mc_index cm d n0 ix). rewrite El.
    cbn [bind]. eexists. split; [reflexivity|]. split; cbn [fst snd]; [exact CI'|].
    intros d1 k I1 H1. rewrite assoc_assoc_set. destruct (String.eqb_spec d1 d) as [->|N].
    * exists ix. split; [reflexivity|]. rewrite upd_same.
      assert (k = c_len c) as -> by (destruct H1 as (c1 & E1 & <-); destruct Ld as (c2 & E2 & L2); congruence).
      exact Ep.
    * rewrite upd_other by exact N. apply (pi_red _ _ _ _ _ _ I d1 k I1 H1).
Qed.

Definition kdims (cm : cman) (kw : list (string * selarg)) : list string :=
  flat_map (fun e => match assoc (fst e) (cm_dmap cm) with Some ds => ds | None => [] end) kw.

Lemma pass_fold cm op psf : wf_cm cm -> forall kw st pick own dn dd,
  pass_inv cm st pick own dn dd ->
  (forall e, In e kw -> exists c, assoc (fst e) (cm_coords cm) = Some (M1 c) /\
     answers op c (snd e) (psf (fst e))) ->
  NoDup (kdims cm kw) -> (forall d, In d (kdims cm kw) -> ~ In d dd) -> NoDup (map fst kw) ->
  exists st' pick' own' dn' dd',
    fold_left (fun acc e => do st <- acc; select_one cm op st e) kw (Ok st) = Ok st' /\
    pass_inv cm st' pick' own' dn' dd' /\
    (forall n d, In n (map fst kw) -> assoc n (cm_dmap cm) = Some [d] -> pick' d = psf n) /\
    (forall n, In n (map fst kw) -> assoc n (cm_dmap cm) = Some [] -> own' n = [psf n]) /\
    (forall d, ~ In d (kdims cm kw) -> pick' d = pick d) /\
    (forall n, ~ In n (map fst kw) -> own' n = own n).
Proof.
  intros W. induction kw as [|e kw IH]; intros st pick own dn dd I H N1 N2 N3.
  - exists st, pick, own, dn, dd. cbn. repeat split; auto; try tauto; apply I.
  - destruct (H e (or_introl eq_refl)) as (c & E & A).
    destruct (wf_1d cm (fst e) c W E) as (ds & D & Hds).
    assert (KD : kdims cm (e :: kw) = ds ++ kdims cm kw) by (unfold kdims; cbn; rewrite D; reflexivity).
    rewrite KD in *.
    destruct (pass_step cm op st e pick own dn dd c (psf (fst e)) W I E A) as (st1 & E1 & I1).
    { intros d Dd. apply N2. rewrite Dd in D. injection D as <-. left; reflexivity. }
    cbn [map] in N3. inversion N3 as [|? ? X3 N3']; subst.
    cbn [fold_left bind]. rewrite E1. rewrite D in I1.
    destruct Hds as [->|(d & -> & Id & Ld)].
    + destruct (IH st1 _ _ _ _ I1) as (st' & pk & ow & dn' & dd' & Ef & If & P1 & P2 & P3 & P4); auto.
      { intros e' J. apply H. right; exact J. }
      exists st', pk, ow, dn', dd'. split; [exact Ef|]. split; [exact If|]. repeat split.
      * intros n d [<-|J] Q; [congruence|]. apply (P1 n d J Q).
      * intros n [<-|J] Q; [rewrite P4 by exact X3; apply upd_same|apply (P2 n J Q)].
      * intros d J. apply P3. exact J.
      * intros n J. cbn [map In] in J. rewrite P4 by tauto. apply upd_other. intros ->. tauto.
    + cbn [app] in N1, N2. inversion N1 as [|? ? X1 N1']; subst.
      destruct (IH st1 _ _ _ _ I1) as (st' & pk & ow & dn' & dd' & Ef & If & P1 & P2 & P3 & P4); auto.
      { intros e' J. apply H. right; exact J. }
      { intros d' J [<-|Q]; [contradiction|]. apply (N2 d'); [right; exact J|exact Q]. }
      exists st', pk, ow, dn', dd'. split; [exact Ef|]. split; [exact If|]. repeat split.
      * intros n d' [<-|J] Q; [|apply (P1 n d' J Q)]. rewrite D in Q. injection Q as <-.
        rewrite P3 by exact X1. apply upd_same.
      * intros n [<-|J] Q; [congruence|apply (P2 n J Q)].
      * intros d' J. cbn [app In] in J. rewrite P3 by tauto. apply upd_other. intros ->. tauto.
      * intros n J. cbn [map In] in J. apply P4. tauto.
Qed.

(** ** Indexing the data along every axis *)
Lemma put_app_here {A} (pre rest : list A) x y : put (pre ++ x :: rest) (List.length pre) y = pre ++ y :: rest.
Proof. induction pre; cbn; [reflexivity|]. f_equal. assumption. Qed.
Lemma nth_app_here {A} (pre rest : list A) x : nth_error (pre ++ x :: rest) (List.length pre) = Some x.
Proof. induction pre; cbn; auto. Qed.

Lemma apply_indexers_gen {A} (a : nd A) s2 : forall l pss2 s1 pre b,
  nd_shape a = s1 ++ s2 -> Forall (fun n => 0 <= n) s2 -> List.length pre = List.length s1 ->
  nd_picked a b (pre ++ full s2) ->
  Forall2 (fun n e => indexer_positions n (fst e) = Some (snd e)) s2 (combine l pss2) ->
  List.length l = List.length s2 -> List.length pss2 = List.length s2 ->
  exists c, apply_indexers b (List.length pre) l = Some c /\ nd_picked a c (pre ++ pss2).
Proof.
  induction s2 as [|n s2 IH]; intros l pss2 s1 pre b Sa Pos Lp P F Ll Lq.
  - destruct l; [|discriminate]. destruct pss2; [|discriminate]. exists b. cbn. auto.
  - destruct l as [|ix l]; [discriminate|]. destruct pss2 as [|ps pss2]; [discriminate|].
    cbn [combine] in F. inversion F as [|? ? ? ? E F']; subst. cbn [fst snd] in E.
    inversion Pos as [|? ? Pn Pos']; subst. cbn [full map] in P. change (map zrange s2) with (full s2) in P.
    assert (Sb : nth_error (nd_shape b) (List.length pre) = Some n).
    { destruct P as (_ & -> & _). rewrite map_app. cbn [map].
      rewrite <- (map_length zlen pre). rewrite nth_app_here. rewrite zlen_zrange. f_equal. lia. }
    assert (B : forall p, In p ps -> 0 <= p < n) by (apply (indexer_positions_in_range _ _ _ Pn E)).
    destruct (nd_index_picked b _ ix n ps (proj1 P) Sb E B) as (b2 & E2 & P2).
    pose proof (nd_picked_compose _ _ _ _ _ P P2) as P3.
    rewrite (proj1 (proj2 P)) in P3.
    rewrite (compose_put _ _ ps (zrange n) ps) in P3; [|apply nth_app_here|apply gather_zrange_id; exact B].
    rewrite put_app_here in P3. cbn [apply_indexers]. rewrite E2.
    destruct (IH l pss2 (s1 ++ [n]) (pre ++ [ps]) b2) as (c & Ec & Pc).
    + rewrite <- app_assoc. exact Sa.
    + exact Pos'.
    + rewrite !app_length. cbn. lia.
    + rewrite <- app_assoc. exact P3.
    + exact F'.
    + cbn in Ll. lia.
    + cbn in Lq. lia.
    + exists c. rewrite app_length in Ec. cbn in Ec. rewrite Nat.add_1_r in Ec. split; [exact Ec|].
      rewrite <- app_assoc in Pc. exact Pc.
Qed.

Lemma apply_indexers_spec {A} (a : nd A) l pss : wf_nd a ->
  Forall2 (fun n e => indexer_positions n (fst e) = Some (snd e)) (nd_shape a) (combine l pss) ->
  List.length l = List.length (nd_shape a) -> List.length pss = List.length (nd_shape a) ->
  exists c, apply_indexers a 0 l = Some c /\ nd_picked a c pss.
Proof.
  intros W F L1 L2. apply (apply_indexers_gen a (nd_shape a) l pss [] [] a); auto.
  - apply W.
  - cbn. apply nd_picked_full. exact W.
Qed.

(** ** One pass, manager and data together *)
Lemma Forall2_length {A B} (R : A -> B -> Prop) l m : Forall2 R l m -> List.length l = List.length m.
Proof. induction 1; cbn; congruence. Qed.

Lemma dim_len_fun cm d k k' : dim_len cm d k -> dim_len cm d k' -> k = k'.
Proof. intros (c & E & <-) (c' & E' & <-). congruence. Qed.

Lemma cm_shape_spec cm s : cm_dims cm <> [] -> Forall2 (dim_len cm) (cm_dims cm) s -> cm_shape cm = Ok s.
Proof.
  intros N F. unfold cm_shape. destruct (cm_dims cm); [congruence|].
  apply map_result_Forall2. eapply Forall2_impl; [|exact F]. cbn. intros d k (c & -> & <-). reflexivity.
Qed.

Lemma new_patch_ok {A} cm (a : nd A) : wf_cm cm -> wf_nd a -> cm_dims cm <> [] ->
  Forall2 (dim_len cm) (cm_dims cm) (nd_shape a) ->
  new_patch cm a = Ok (mkPatch cm a) /\ wf_patch (mkPatch cm a).
Proof.
  intros W Wa N F. split.
  - unfold new_patch. rewrite (cm_shape_spec _ _ N F). cbn [bind].
    rewrite (proj2 (zlist_eqb_eq _ _) eq_refl). reflexivity.
  - split; assumption.
Qed.

Lemma co_update cm new pick own dn dd : wf_cm cm -> plain_names cm ->
  co_inv cm new pick own dn dd ->
  exists kws cm', with_dims cm new = Ok kws /\ cm_update cm kws = Ok cm' /\ wf_cm cm' /\
    cm_aligned cm cm' pick own.
Proof.
  intros W PN I.
  assert (KE : forall x, In x (map fst new) <-> In x (map fst (cm_coords cm)))
    by (intros x; rewrite (ci_keys _ _ _ _ _ _ I); reflexivity).
  assert (BACK : forall n m', assoc n new = Some m' ->
     exists m, assoc n (cm_coords cm) = Some m /\ okm m' /\ carried m m' (picks_of cm pick own n)).
  { intros n m' E. assert (In n (map fst (cm_coords cm))) as J by (apply KE, assoc_In; eauto).
    apply assoc_In in J. destruct J as [m J]. destruct (ci_coord _ _ _ _ _ _ I n m J) as (m2 & A1 & A2 & A3 & _).
    rewrite E in A1. injection A1 as <-. exists m. auto. }
  assert (DM : forall d, In d (cm_dims cm) -> exists c, assoc d new = Some (M1 c) /\ c_len c = zlen (pick d)).
  { intros d J. destruct (wf_dim_coord cm d W J) as (c & E & _ & D).
    destruct (ci_coord _ _ _ _ _ _ I d _ E) as (m' & A1 & A2 & A3 & _).
    pose proof (carried_shape _ _ _ A2 A3) as SH. unfold picks_of in *. rewrite D in *.
    destruct A3 as (c' & ps & -> & _ & _). exists c'. split; [exact A1|]. cbn in SH. congruence. }
  destruct (cm_update_all cm new) as (kws & cm' & E1 & E2 & W' & E3 & E4 & E5); auto.
  - rewrite (ci_keys _ _ _ _ _ _ I). apply (wf_ckeys _ W).
  - intros n m' E. destruct (BACK n m' E) as (? & _ & K & _). exact K.
  - intros d J. destruct (DM d J) as (c & E & _). eauto.
  - intros n m' ds E D N. destruct (BACK n m' E) as (m & Em & K & C).
    rewrite (carried_shape _ _ _ K C). unfold picks_of. rewrite D. destruct ds as [|d0 ds]; [congruence|].
    destruct (wf_lookup cm n m W Em) as (ds' & D' & S & _). rewrite D in D'. injection D' as <-.
    unfold fits. rewrite map_map. clear N D. revert S. generalize (d0 :: ds). intros l.
    induction l as [|x l IH]; intros S; cbn [map]; constructor.
    + destruct (DM x) as (c & Ec & Lc); [apply S; left; reflexivity|]. eauto.
    + apply IH. intros; apply S; right; assumption.
  - exists kws, cm'. split; [exact E1|]. split; [exact E2|]. split; [exact W'|].
    split; [exact E3|]. split; [exact E4|]. intros n. rewrite E5.
    destruct (assoc n (cm_coords cm)) as [m|] eqn:E.
    + destruct (ci_coord _ _ _ _ _ _ I n m E) as (m' & A1 & A2 & A3 & _). rewrite A1. cbn.
      apply carried_recf; assumption.
    + assert (assoc n new = None) as ->; [|exact Logic.I].
      apply assoc_None. rewrite KE. apply assoc_None. exact E.
Qed.

Lemma pass_update cm st pick own dn dd : wf_cm cm -> plain_names cm ->
  pass_inv cm st pick own dn dd ->
  exists kws cm', with_dims cm (fst st) = Ok kws /\ cm_update cm kws = Ok cm' /\ wf_cm cm' /\
    cm_aligned cm cm' pick own.
Proof. intros W P I. apply (co_update cm (fst st) pick own dn dd W P (pi_co _ _ _ _ _ _ I)). Qed.

Lemma aligned_dims cm cm' pick own : wf_cm cm -> wf_cm cm' -> cm_aligned cm cm' pick own ->
  Forall2 (dim_len cm') (cm_dims cm') (map zlen (map pick (cm_dims cm))).
Proof.
  intros W W' (E1 & _ & C). rewrite E1.
  assert (H : forall d, In d (cm_dims cm) -> dim_len cm' d (zlen (pick d))).
  { intros d J. destruct (wf_dim_coord cm d W J) as (c & E & _ & D). specialize (C d).
    rewrite E in C. destruct (assoc d (cm_coords cm')) as [m'|] eqn:E'; [|contradiction].
    pose proof (wf_okm _ (wf_vals _ W' _ _ E')) as K. pose proof (carried_shape _ _ _ K C) as SH.
    destruct C as (c' & ps & -> & Q & _). unfold picks_of in *. rewrite D in *.
    exists c'. split; [exact E'|]. cbn in SH. congruence. }
  clear E1. revert H. induction (cm_dims cm) as [|d l IH]; intros H; cbn; constructor.
  - apply H. left; reflexivity.
  - apply IH. intros; apply H; right; assumption.
Qed.

Definition kw_ok (cm : cman) (op : coord -> selarg -> result (coord * indexer))
  (psf : string -> list Z) (kw : list (string * selarg)) : Prop :=
  (forall e, In e kw -> exists c, assoc (fst e) (cm_coords cm) = Some (M1 c) /\
     answers op c (snd e) (psf (fst e))) /\
  NoDup (kdims cm kw) /\ NoDup (map fst kw).

Lemma select_pass {A} cm (a : nd A) op psf kw : wf_patch (mkPatch cm a) -> plain_names cm ->
  kw_ok cm op psf kw ->
  exists x kws cm' b pick own,
    indexers_and_coords cm op kw = Ok x /\ with_dims cm (fst x) = Ok kws /\
    cm_update cm kws = Ok cm' /\ apply_indexers a 0 (dim_indexers cm (snd x)) = Some b /\
    aligned (mkPatch cm a) (mkPatch cm' b) pick own /\
    picks_kw cm psf (map fst kw) pick own.
Proof.
  intros WP PN (H & N1 & N2). pose proof (wp_cm _ WP) as W. cbn [p_cm] in W.
  destruct (pass_fold cm op psf W kw _ _ _ _ _ (pass_init cm W) H N1) as
    (st & pick & own & dn & dd & Ef & I & P1 & P2 & P3 & P4); auto.
  destruct (pass_update cm st pick own dn dd W PN I) as (kws & cm' & E1 & E2 & W' & AL).
  assert (F : Forall2 (fun n e => indexer_positions n (fst e) = Some (snd e)) (nd_shape a)
                (combine (dim_indexers cm (snd st)) (map pick (cm_dims cm)))).
  { pose proof (wp_shape _ WP) as S. cbn [p_cm p_data] in S. unfold dim_indexers.
    pose proof (pi_red _ _ _ _ _ _ I) as R. clear Ef. revert R S. generalize (nd_shape a) as s.
    induction (cm_dims cm) as [|d l IH]; intros s R S; inversion S as [|? k ? s' H1 F1]; subst; cbn [map combine]; constructor.
    - cbn [fst snd]. destruct (R d k (or_introl eq_refl) H1) as (ix & -> & Ei). exact Ei.
    - apply IH; [|exact F1]. intros d' k' J. apply R. right; exact J. }
  assert (LE : List.length (nd_shape a) = List.length (cm_dims cm)).
  { pose proof (wp_shape _ WP) as S. symmetry. apply (Forall2_length _ _ _ S). }
  destruct (apply_indexers_spec a _ _ (wp_nd _ WP) F) as (b & E3 & Pb).
  { unfold dim_indexers. rewrite map_length. congruence. }
  { rewrite map_length. congruence. }
  exists st, kws, cm', b, pick, own. split; [exact Ef|]. split; [exact E1|]. split; [exact E2|].
  split; [exact E3|]. split.
  - split; [|split; [exact AL|exact Pb]]. split; cbn [p_cm p_data].
    + exact W'.
    + apply Pb.
    + destruct AL as (-> & _). apply (wp_some _ WP).
    + rewrite (proj1 (proj2 Pb)). apply (aligned_dims cm cm' pick own W W' AL).
  - split; [exact P1|]. split; [exact P2|]. split; [|exact P4].
    intros d Q. apply P3. intros J. unfold kdims in J. apply in_flat_map in J. destruct J as (e & Je & J).
    destruct (H e Je) as (c & Ec & _). destruct (wf_1d cm (fst e) c W Ec) as (ds & D & Hds).
    rewrite D in J. destruct Hds as [->|(d' & -> & _)]; [destruct J|]. destruct J as [->|[]].
    apply (Q (fst e)); [apply in_map; exact Je|exact D].
Qed.
