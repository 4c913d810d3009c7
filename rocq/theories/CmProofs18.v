(** Lemmas behind CmProps.v: renaming back, appending and squeezing, and a decision
    procedure for well-formedness used by the witnesses. *)
From Verif Require Import Base BaseFacts CoordModel CoordSpec CoordProofs CoordProofs2 CoordProofs3
  CoordProofs4 CoordProofs5 NdModel NdSpec NdProofs NdProofs2 NdProofs3 FrameModel FrameProofs5 ChunkModel CmModel CmSpec
  CmProofs CmProofs2 CmProofs3 CmProofs5 CmProofs11 CmProofs12 CmProofs13 CmProofs14 CmProofs15 CmProofs16 CmProofs17.
From Coq Require Import Strings.String ZifyBool Sorting.Permutation Sorting.Sorted.
Ltac Zify.zify_post_hook ::= Z.div_mod_to_equations.
Local Open Scope Z_scope.
Local Open Scope list_scope.

Lemma renamed_app k1 k2 n : renamed (k1 ++ k2) n = renamed k2 (renamed k1 n).
Proof. revert n. induction k1 as [|[o w] t IH]; intros n; [reflexivity|]. cbn [renamed app]. apply IH. Qed.
Lemma fresh_app k1 : forall k2 names, fresh_renames k1 names -> fresh_renames k2 (map (renamed k1) names) ->
  fresh_renames (k1 ++ k2) names.
Proof.
  induction k1 as [|[o w] t IH]; intros k2 names F1 F2; cbn [app].
  - cbn [renamed] in F2. rewrite map_id in F2. exact F2.
  - cbn [fresh_renames] in *. destruct F1 as (I1 & N1 & F1). repeat split; auto. apply IH; [exact F1|].
    rewrite map_map. cbn [renamed] in F2. exact F2.
Qed.
Lemma undo_fresh kw : forall names, fresh_renames kw names ->
  fresh_renames (undo_renames kw) (map (renamed kw) names) /\
  forall x, In x names -> renamed (undo_renames kw) (renamed kw x) = x.
Proof.
  induction kw as [|[o w] t IH]; intros names F; [split; [exact Logic.I|reflexivity]|].
  cbn [fresh_renames] in F. destruct F as (Io & Nw & F). destruct (IH _ F) as [Fu Cu]. clear IH.
  set (sw := fun n => if String.eqb n o then w else n) in *.
  assert (CS : forall x, In x names -> (if String.eqb (sw x) w then o else sw x) = x).
  { intros x X. unfold sw. destruct (String.eqb_spec x o) as [->|N]; [rewrite String.eqb_refl; reflexivity|].
    destruct (String.eqb_spec x w) as [->|]; [|reflexivity]. destruct Nw as [->|Nw]; congruence. }
  split.
  - unfold undo_renames. cbn [map rev fst snd]. apply fresh_app.
    + cbn [renamed]. rewrite map_map in Fu. exact Fu.
    + cbn [renamed]. rewrite map_map.
      assert (EQ : map (fun x => renamed (undo_renames t) (renamed t (if String.eqb x o then w else x))) names = map sw names).
      { apply map_ext_in. intros x X. apply (Cu (sw x)). apply in_map, X. }
      unfold undo_renames in EQ. rewrite EQ. cbn [fresh_renames]. split; [|split; [|exact Logic.I]].
      * apply in_map_iff. exists o. unfold sw. rewrite String.eqb_refl. auto.
      * destruct (string_dec o w) as [E|E]; [left; congruence|right]. intros J. apply in_map_iff in J as (x & Q & _). unfold sw in Q.
        destruct (String.eqb_spec x o); congruence.
  - intros x X. unfold undo_renames. cbn [map rev fst snd]. rewrite renamed_app. cbn [renamed].
    change (renamed (rev (map (fun e => (snd e, fst e)) t))) with (renamed (undo_renames t)).
    assert (X' : In (sw x) (map sw names)) by (apply in_map, X). pose proof (Cu _ X') as Q.
    fold (sw x). rewrite Q. exact (CS x X).
Qed.

Lemma pt_rename_back {A} (p : patch A) kw : wf_patch p -> fresh_renames kw (map fst (cm_coords (p_cm p))) ->
  exists p' p'', pt_rename p kw = Ok p' /\ pt_rename p' (undo_renames kw) = Ok p'' /\ wf_patch p'' /\
    p_data p'' = p_data p /\ cm_dims (p_cm p'') = cm_dims (p_cm p) /\
    forall n, assoc n (cm_coords (p_cm p'')) = assoc n (cm_coords (p_cm p)) /\
              assoc n (cm_dmap (p_cm p'')) = assoc n (cm_dmap (p_cm p)).
Proof.
  intros W F. destruct (pt_rename_ok p kw W F) as (p' & E1 & W1 & D1 & Dm1 & N1 & A1).
  destruct (undo_fresh kw _ F) as [FU CU].
  destruct (pt_rename_ok p' (undo_renames kw) W1) as (p'' & E2 & W2 & D2 & Dm2 & N2 & A2).
  { eapply fresh_ext; [|exact FU]. intros x. symmetry. apply N1. }
  exists p', p''. split; [exact E1|]. split; [exact E2|]. split; [exact W2|]. split; [congruence|].
  pose proof (wp_cm _ W) as Wc. pose proof (wp_cm _ W2) as Wc2.
  assert (DN : forall d, In d (cm_dims (p_cm p)) -> In d (map fst (cm_coords (p_cm p)))).
  { intros d J. destruct (wf_dim_coord _ d Wc J) as (c & E & _). apply assoc_In. eauto. }
  split.
  { rewrite Dm2, Dm1, map_map. erewrite map_ext_in; [apply map_id|]. intros d J. apply CU, DN, J. }
  assert (IN : forall x, In x (map fst (cm_coords (p_cm p''))) <-> In x (map fst (cm_coords (p_cm p)))).
  { intros x. rewrite N2. split; intros J.
    - apply in_map_iff in J as (y & <- & Y). apply N1 in Y. apply in_map_iff in Y as (z & <- & Zz). rewrite CU by exact Zz. exact Zz.
    - rewrite <- (CU x J). apply in_map. apply N1. apply in_map, J. }
  intros n. destruct (in_dec string_dec n (map fst (cm_coords (p_cm p)))) as [J|J].
  - destruct (A1 n J) as [Ac Ad]. destruct (A2 (renamed kw n)) as [Ac2 Ad2]; [apply N1; apply in_map, J|].
    rewrite CU in Ac2, Ad2 by exact J. split; [congruence|]. rewrite Ad2, Ad.
    destruct (assoc n (cm_dmap (p_cm p))) as [ds|] eqn:D; [|reflexivity]. cbn [option_map]. f_equal. rewrite map_map.
    erewrite map_ext_in; [apply map_id|]. intros d K. apply CU, DN. destruct (con_coord _ (wf_con _ Wc) n ds D) as (m & _ & S & _). apply S, K.
  - assert (Q : forall cm, wf_cm cm -> ~ In n (map fst (cm_coords cm)) -> assoc n (cm_coords cm) = None /\ assoc n (cm_dmap cm) = None).
    { intros cm Wx Nx. split.
      - destruct (assoc n (cm_coords cm)) eqn:E; [|reflexivity]. exfalso. apply Nx. apply assoc_In. eauto.
      - destruct (assoc n (cm_dmap cm)) eqn:E; [|reflexivity]. exfalso. apply Nx. apply (wf_keys_iff cm Wx). apply assoc_In. eauto. }
    destruct (Q _ Wc J) as [-> ->]. destruct (Q _ Wc2) as [-> ->]; [rewrite IN; exact J|]. auto.
Qed.

(** ** Appending length-one dimensions and squeezing them *)
Lemma data_ext {A} (p q : patch A) : wf_patch p -> wf_patch q -> cm_dims (p_cm q) = cm_dims (p_cm p) ->
  nd_shape (p_data q) = nd_shape (p_data p) -> (forall pos, data_at q pos = data_at p pos) -> p_data q = p_data p.
Proof.
  intros W Wq D S G. apply nd_ext; [apply (wp_nd _ Wq)|apply (wp_nd _ W)|exact S|].
  intros ix B. destruct (by_name (cm_dims (p_cm p)) ix) as [pos ->].
  - apply (wf_dims _ (wp_cm _ W)).
  - rewrite (inb_length _ _ B), S. symmetry. pose proof (wp_shape _ W) as F. clear - F. induction F; cbn; congruence.
  - specialize (G pos). unfold data_at in G. rewrite D in G. exact G.
Qed.
Lemma pt_append_squeeze {A} (p : patch A) new : wf_patch p -> NoDup (map fst new) -> new <> [] ->
  (forall e, In e new -> newdim (p_cm p) e /\ newlen (snd e) = 1) ->
  exists p' p'', pt_append_dims p new = Ok p' /\ pt_squeeze p' (Some (map fst new)) = Ok p'' /\ wf_patch p'' /\
    p_data p'' = p_data p /\ cm_dims (p_cm p'') = cm_dims (p_cm p) /\
    forall n, assoc n (cm_dmap (p_cm p'')) = assoc n (cm_dmap (p_cm p)) /\
      match assoc n (cm_coords (p_cm p)), assoc n (cm_coords (p_cm p'')) with
      | Some m, Some m' => carried m m' (full (m_shape m))
      | None, None => True
      | _, _ => False end.
Proof.
  intros W ND NE H. destruct (pt_append_ok p new W ND NE (fun e J => proj1 (H e J))) as (p' & E1 & W1 & D1 & C1 & O1 & N1 & G1).
  pose proof (wp_cm _ W) as Wc. pose proof (wp_cm _ W1) as Wc1.
  assert (DN : forall d, In d (cm_dims (p_cm p)) -> In d (map fst (cm_coords (p_cm p)))).
  { intros d J. destruct (wf_dim_coord _ d Wc J) as (c & E & _). apply assoc_In. eauto. }
  assert (NN : forall d, In d (map fst new) -> ~ In d (map fst (cm_coords (p_cm p)))).
  { intros d J. apply in_map_iff in J as (e & <- & J). apply (proj1 (H e J)). }
  assert (NL : forall d, In d (map fst new) -> exists v, assoc d new = Some v /\ newlen v = 1).
  { intros d J. apply assoc_In in J as [v V]. exists v. split; [exact V|]. apply assoc_in in V. apply (proj2 (H _ V)). }
  destruct (pt_squeeze_ok p' (Some (map fst new)) (map fst new) W1) as (p'' & E2 & W2 & D2 & C2 & M2 & G2 & _).
  { auto. }
  { intros d J. split; [|rewrite D1; apply in_or_app; right; exact J]. destruct (NL d J) as (v & V & L).
    destruct (N1 d v V) as (_ & c & Cc & R). exists c. split; [exact Cc|]. destruct v as [m|k vs|k a|n]; [destruct R| |destruct R|].
    - destruct R as [R _]. pose proof (wf_vals _ Wc1 _ _ Cc) as Wm. cbn in Wm. rewrite <- (c_len_values c (wf_okc c Wm)). cbn in L. lia.
    - subst c. exact L. }
  { destruct (cm_dims (p_cm p)) as [|d t] eqn:D; [exfalso; apply (wp_some _ W D)|]. exists d. split.
    - rewrite D1. left; reflexivity.
    - intros J. apply (NN d J), DN. left; reflexivity. }
  exists p', p''. split; [exact E1|]. split; [exact E2|]. split; [exact W2|].
  assert (DD : cm_dims (p_cm p'') = cm_dims (p_cm p)).
  { rewrite D2, D1, filter_app.
    assert (filter (fun d => negb (mem d (map fst new))) (map fst new) = []) as ->.
    { assert (Q : forall l, (forall x, In x l -> In x (map fst new)) -> filter (fun d => negb (mem d (map fst new))) l = []); [|apply Q; auto].
      induction l as [|x t IH]; intros Q; [reflexivity|]. cbn [filter]. rewrite (proj2 (mem_In' x _) (Q x (or_introl eq_refl))). cbn. apply IH. intros; apply Q; right; assumption. }
    rewrite app_nil_r. clear - NN DN. induction (cm_dims (p_cm p)) as [|x t IH]; [reflexivity|]. cbn [filter].
    assert (mem x (map fst new) = false) as ->; [|cbn [negb]; f_equal; apply IH; intros; apply DN; right; assumption].
    apply mem_false. intros K. apply (NN x K), DN. left; reflexivity. }
  assert (CC : forall n, assoc n (cm_dmap (p_cm p'')) = assoc n (cm_dmap (p_cm p)) /\ assoc n (cm_coords (p_cm p'')) = option_map recf (assoc n (cm_coords (p_cm p)))).
  { intros n. rewrite C2, M2. destruct (in_dec string_dec n (map fst (cm_coords (p_cm p)))) as [J|J].
    - destruct (C1 n J) as [Cn Dn]. assert (droppedb (p_cm p') (map fst new) n = false) as ->; [|rewrite Cn, Dn; auto].
      unfold droppedb. apply Bool.orb_false_iff. split; [apply mem_false; intros K; apply (NN n K J)|]. rewrite Dn.
      destruct (assoc n (cm_dmap (p_cm p))) as [ds|] eqn:D; [|reflexivity].
      destruct (meets_any ds (map fst new)) eqn:MA; [|reflexivity]. exfalso. apply meets_any_spec in MA as (x & X1 & X2).
      apply (NN x X2), DN. destruct (con_coord _ (wf_con _ Wc) n ds D) as (m & _ & S & _). apply S, X1.
    - assert (A0 : assoc n (cm_coords (p_cm p)) = None) by (destruct (assoc n (cm_coords (p_cm p))) eqn:E; [exfalso; apply J, assoc_In; eauto|reflexivity]).
      assert (B0 : assoc n (cm_dmap (p_cm p)) = None).
      { destruct (assoc n (cm_dmap (p_cm p))) eqn:E; [|reflexivity]. exfalso. apply J. apply (wf_keys_iff _ Wc). apply assoc_In; eauto. }
      rewrite A0, B0. cbn [option_map]. destruct (in_dec string_dec n (map fst new)) as [K|K].
      + assert (droppedb (p_cm p') (map fst new) n = true) as ->; [|auto]. unfold droppedb. rewrite (proj2 (mem_In' _ _) K). reflexivity.
      + assert (A1' : assoc n (cm_coords (p_cm p')) = None) by (apply O1; assumption). rewrite A1'.
        assert (assoc n (cm_dmap (p_cm p')) = None) as ->.
        { destruct (assoc n (cm_dmap (p_cm p'))) eqn:E; [|reflexivity]. exfalso.
          assert (Q : In n (map fst (cm_coords (p_cm p')))) by (apply (wf_keys_iff _ Wc1); apply assoc_In; eauto).
          apply assoc_In in Q as [m Q]. congruence. }
        destruct (droppedb _ _ _); auto. }
  split; [|split; [exact DD|]].
  - apply data_ext; auto.
    + assert (F2 := wp_shape _ W2). rewrite DD in F2. pose proof (wp_shape _ W) as F1.
      clear - F1 F2 CC Wc. revert F2. generalize (nd_shape (p_data p'')). induction F1 as [|d k l s (c & E & L) F1 IH]; intros s2 F2; inversion F2 as [|? k2 ? ? (c2 & E2 & L2) F2']; subst; [reflexivity|].
      f_equal; [|apply IH; assumption]. destruct (CC d) as [_ Q]. rewrite E in Q. cbn [option_map] in Q.
      destruct (recf_M1 c) as (c' & R1 & R2 & _); [apply wf_okc; exact (wf_vals _ Wc _ _ E)|]. rewrite R1, E2 in Q. injection Q as ->. exact R2.
    + intros pos. rewrite G2. rewrite G1.
      * unfold data_at. f_equal. apply map_ext_in. intros d J. assert (mem d (map fst new) = false) as ->; [|reflexivity].
        apply mem_false. intros K. apply (NN d K), DN, J.
      * intros n v V. assert (J : In n (map fst new)) by (apply assoc_In; eauto). rewrite (proj2 (mem_In' _ _) J).
        destruct (NL n J) as (v' & V' & L). rewrite V in V'. injection V' as <-. lia.
  - intros n. destruct (CC n) as [-> ->]. split; [reflexivity|]. destruct (assoc n (cm_coords (p_cm p))) as [m|] eqn:E; [|exact Logic.I].
    cbn [option_map]. apply carried_recf; [apply wf_okm, (wf_vals _ Wc _ _ E)|apply carried_refl, (wf_vals _ Wc _ _ E)].
Qed.

(** ** Deciding well-formedness *)
Definition coord_okb (m : mcoord) : bool :=
  match m with
  | M1 (CRange r) => negb (r_step r =? 0) && (1 <=? r_len r) && (r_stop r =? r_start r + r_len r * r_step r)
  | M1 (CMono _ v) => match v with [] => false | _ => is_monotonic v end
  | M1 (CArr _ v) => match v with [] => false | _ => true end
  | M1 (CPart n) => 0 <=? n
  | MN _ a => forallb (fun n => 0 <=? n) (nd_shape a) && (zlen (nd_flat a) =? size (nd_shape a)) &&
              negb (Nat.eqb (List.length (nd_shape a)) 1) && (0 <? size (nd_shape a))
  | MNP s => forallb (fun n => 0 <=? n) s && negb (Nat.eqb (List.length s) 1)
  end.
Lemma coord_okb_ok m : coord_okb m = true -> wf_mcoord m.
Proof.
  destruct m as [[r|k v|k v|n]|k a|s]; cbn [coord_okb wf_mcoord wf_coord]; unfold wf_range, wf_nd; intros H.
  - lia.
  - destruct v; [discriminate|]. split; [discriminate|]. apply is_monotonic_spec, H.
  - destruct v; [discriminate|]. discriminate.
  - lia.
  - apply andb_prop in H as [H H4]. apply andb_prop in H as [H H3]. apply andb_prop in H as [H1 H2].
    split; [split|split].
    + apply Forall_forall. intros x X. rewrite forallb_forall in H1. specialize (H1 x X). lia.
    + lia.
    + intros E. rewrite E in H3. discriminate.
    + lia.
  - apply andb_prop in H as [H1 H3]. split.
    + apply Forall_forall. intros x X. rewrite forallb_forall in H1. specialize (H1 x X). lia.
    + intros E. rewrite E in H3. discriminate.
Qed.
Lemma has_dup_ok l : has_dup l = false -> NoDup l.
Proof.
  induction l as [|x t IH]; cbn [has_dup]; intros H; constructor; apply Bool.orb_false_iff in H as [H1 H2]; [apply mem_false, H1|apply IH, H2].
Qed.
Definition patch_wfb {A} (p : patch A) : bool :=
  let cm := p_cm p in
  match build_cm (cm_dims cm) (cm_coords cm) (cm_dmap cm), new_patch cm (p_data p) with
  | Ok _, Ok _ =>
      negb (has_dup (cm_dims cm)) && negb (has_dup (map fst (cm_coords cm))) && negb (has_dup (map fst (cm_dmap cm))) &&
      subset (map fst (cm_coords cm)) (map fst (cm_dmap cm)) &&
      forallb (fun e => negb (has_dup (snd e))) (cm_dmap cm) && forallb (fun e => coord_okb (snd e)) (cm_coords cm) &&
      forallb (fun n => 0 <=? n) (nd_shape (p_data p)) && (zlen (nd_flat (p_data p)) =? size (nd_shape (p_data p))) &&
      negb (match cm_dims cm with [] => true | _ => false end)
  | _, _ => false
  end.
Lemma patch_wfb_ok {A} (p : patch A) : patch_wfb p = true -> wf_patch p.
Proof.
  destruct p as [[dims cs dm] a]. unfold patch_wfb. cbn [p_cm p_data cm_dims cm_coords cm_dmap].
  destruct (build_cm dims cs dm) as [cm|] eqn:B; [|discriminate]. destruct (new_patch _ a) as [q|] eqn:N; [|discriminate]. intros H.
  repeat match goal with X : (_ && _)%bool = true |- _ => apply andb_prop in X as [X ?] end.
  repeat match goal with X : negb _ = true |- _ => apply Bool.negb_true_iff in X end.
  match goal with X : forallb (fun e => coord_okb (snd e)) cs = true |- _ => rewrite forallb_forall in X; rename X into HC end.
  match goal with X : forallb (fun e => negb (has_dup (snd e))) dm = true |- _ => rewrite forallb_forall in X; rename X into HD end.
  assert (AO : allok cs). { intros n m J. pose proof (coord_okb_ok m (HC (n, m) J)) as Q. destruct m; cbn in *; tauto. }
  destruct (build_sound _ _ _ _ AO B) as [C _]. pose proof (proj2 (build_cm_accepted dims cs dm) cm B) as [_ ->].
  assert (S : sound q) by (eapply new_patch_sound; [split; [exact C|exact AO]|exact N]).
  assert (q = mkPatch (mkCm dims cs dm) a) as ->. { unfold new_patch in N. apply bind_ok in N as (s & _ & N). destruct (zlist_eqb _ _); congruence. }
  split; cbn [p_cm p_data].
    + split; cbn [cm_dims cm_coords cm_dmap].
      * exact C.
      * apply has_dup_ok; assumption.
      * apply has_dup_ok; assumption.
      * apply has_dup_ok; assumption.
      * intros n J. match goal with X : subset _ _ = true |- _ => unfold subset in X; rewrite forallb_forall in X; specialize (X n J); apply mem_In' in X; exact X end.
      * intros n ds E. apply assoc_in in E. specialize (HD _ E). apply has_dup_ok. apply Bool.negb_true_iff, HD.
      * intros n m E. apply assoc_in in E. apply coord_okb_ok. apply (HC _ E).
    + split; [|lia]. apply Forall_forall. intros x X. match goal with Y : forallb (fun n => 0 <=? n) _ = true |- _ => rewrite forallb_forall in Y; specialize (Y x X) end. lia.
    + destruct dims; [discriminate|]. cbn. discriminate.
    + destruct S as (_ & _ & S). cbn [p_cm p_data cm_dims] in S. destruct dims; [discriminate|exact S].
Qed.
Definition patch_okb {A} (p : patch A) : bool :=
  patch_wfb p && forallb (fun n => negb (limit_key (cm_dims (p_cm p)) n)) (map fst (cm_coords (p_cm p))).
Lemma patch_okb_ok {A} (p : patch A) : patch_okb p = true -> wf_patch p /\ plain_names (p_cm p).
Proof.
  unfold patch_okb. intros H. apply andb_prop in H as [H X]. split; [apply patch_wfb_ok, H|].
  intros n J. rewrite forallb_forall in X. specialize (X n J). apply Bool.negb_true_iff in X. exact X.
Qed.
