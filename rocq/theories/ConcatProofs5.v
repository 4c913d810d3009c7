(** Lemmas behind ConcatProps.v: stacking. *)
From Verif Require Import Base ProcProofs2 BaseFacts CoordModel CoordSpec CoordProofs CoordProofs2 CoordProofs3
  CoordProofs4 CoordProofs5 NdModel NdSpec NdProofs NdProofs2 NdProofs3 FrameModel FrameProofs5 ChunkModel CmModel CmSpec
  CmProofs CmProofs2 CmProofs3 CmProofs4 CmProofs12 CmProofs13 CmProofs15 CmProofs17 CmProofs19 MergeModel MergeSpec MergeProofs MergeProofs5 MergeProofs6 MergeProofs7 BinOpModel ConcatModel ConcatSpec ConcatProofs ConcatProofs2 ConcatProofs3.
From Coq Require Import Strings.String Strings.Ascii ZifyBool.
Ltac Zify.zify_post_hook ::= Z.div_mod_to_equations.
Local Open Scope Z_scope.
Local Open Scope list_scope.

(** ** Arrays of the same shape *)
Lemma bcast_ix_same s ix : inb s ix -> bcast_ix s ix = ix.
Proof.
  intros H. unfold bcast_ix. rewrite <- (rev_involutive ix) at 2. f_equal. unfold inb in H.
  assert (F : Forall2 (fun n i => 0 <= i < n) (rev s) (rev ix)).
  { clear - H. induction H as [|n i s ix Hn F IH]; [constructor|]. cbn [rev]. apply Forall2_app; [exact IH|]. constructor; [exact Hn|constructor]. }
  induction F as [|n i s' ix' Hn F IH]; [reflexivity|]. cbn [bcast_ix_rev]. rewrite IH. f_equal. destruct (Z.eqb_spec n 1); lia.
Qed.
Lemma broadcast_shapes_same s : broadcast_shapes s s = Some s.
Proof.
  unfold broadcast_shapes. assert (E : forall l, bcast_rev l l = Some l).
  { induction l as [|n l IH]; [reflexivity|]. cbn [bcast_rev]. rewrite IH. unfold bcast_len. rewrite Z.eqb_refl. reflexivity. }
  rewrite E. cbn. rewrite rev_involutive. reflexivity.
Qed.
Lemma nd_map2_same {A B C} (op : A -> B -> C) (a : nd A) (b : nd B) : wf_nd a -> wf_nd b -> nd_shape b = nd_shape a ->
  exists c, nd_map2 op a b = Ok c /\ wf_nd c /\ nd_shape c = nd_shape a /\
    forall ix, inb (nd_shape a) ix -> exists x y, nd_get a ix = Some x /\ nd_get b ix = Some y /\ nd_get c ix = Some (op x y).
Proof.
  intros Wa Wb S. unfold nd_map2. rewrite S, broadcast_shapes_same.
  set (f := fun ix => match nd_get a (bcast_ix (nd_shape a) ix), nd_get b (bcast_ix (nd_shape a) ix) with Some x, Some y => Some (op x y) | _, _ => None end).
  assert (F : forall ix, inb (nd_shape a) ix -> exists x y, nd_get a ix = Some x /\ nd_get b ix = Some y /\ f ix = Some (op x y)).
  { intros ix H. destruct (nd_get_total a ix Wa H) as [x X]. destruct (nd_get_total b ix Wb) as [y Y]; [rewrite S; exact H|].
    exists x, y. unfold f. rewrite (bcast_ix_same _ _ H), X, Y. auto. }
  destruct (nd_build_total (nd_shape a) f (proj1 Wa)) as (c & E); [intros ix H; destruct (F ix H) as (? & ? & _ & _ & Q); eauto|].
  rewrite E. exists c. destruct (nd_build_spec _ f c (proj1 Wa) E) as (Sc & Wc & G). split; [reflexivity|]. split; [exact Wc|]. split; [exact Sc|].
  intros ix H. destruct (F ix H) as (x & y & X & Y & Q). exists x, y. destruct (G ix H) as (z & Z1 & Z2). rewrite Z2, <- Z1, Q. auto.
Qed.

Section Sum.
Context {A : Type} (zero : A) (add : A -> A -> A).
Lemma sum_ok (s : list Z) : forall (ps : list (patch A)) (acc : nd A), wf_nd acc -> nd_shape acc = s ->
  (forall p, In p ps -> wf_nd (p_data p) /\ nd_shape (p_data p) = s) ->
  exists out, fold_left (fun acc p => do a <- acc; nd_map2 add a (p_data p)) ps (Ok acc) = Ok out /\ wf_nd out /\ nd_shape out = s /\
    forall ix, inb s ix -> exists vs z, Forall2 (fun p v => nd_get (p_data p) ix = Some v) ps vs /\ nd_get acc ix = Some z /\
      nd_get out ix = Some (fold_left add vs z).
Proof.
  induction ps as [|p ps IH]; intros acc W S H.
  - exists acc. split; [reflexivity|]. split; [exact W|]. split; [exact S|]. intros ix Hx. destruct (nd_get_total acc ix W) as [z Z]; [rewrite S; exact Hx|].
    exists [], z. split; [constructor|]. auto.
  - cbn [fold_left bind]. destruct (H p (or_introl eq_refl)) as [Wp Sp].
    destruct (nd_map2_same add acc (p_data p) W Wp) as (c & E & Wc & Sc & G); [congruence|]. rewrite E.
    destruct (IH c Wc) as (out & EO & WO & SO & GO); [congruence|intros q I; apply H; right; exact I|].
    exists out. split; [exact EO|]. split; [exact WO|]. split; [exact SO|]. intros ix Hx.
    destruct (GO ix Hx) as (vs & z & F & Zc & Q). destruct (G ix) as (x & y & X & Y & Z2); [rewrite S; exact Hx|].
    exists (y :: vs), x. split; [constructor; assumption|]. split; [exact X|]. rewrite Q. cbn [fold_left]. congruence.
Qed.
Lemma zeros_ok (a : nd A) : wf_nd a -> wf_nd (mkNd (nd_shape a) (map (fun _ => zero) (nd_flat a))) /\
  forall ix x, nd_get (mkNd (nd_shape a) (map (fun _ => zero) (nd_flat a))) ix = Some x -> x = zero.
Proof.
  intros [N L]. split; [split; cbn [nd_shape nd_flat]; [exact N|rewrite zlen_map; exact L]|].
  intros ix x E. unfold nd_get in E. cbn [nd_shape nd_flat] in E. destruct (ravel (nd_shape a) ix) as [o|]; [|discriminate].
  rewrite znth_map in E. destruct (znth (nd_flat a) o); [injection E as <-; reflexivity|discriminate].
Qed.
End Sum.

(** ** The labels *)
Lemma rebase_ok c : wf_coord c -> concrete c -> c_ints c <> [] ->
  exists c', start_at c 0 = Ok c' /\ okc c' /\ c_len c' = c_len c /\ rebased c c'.
Proof.
  intros W C NE. destruct c as [r|k v|k v|n]; [| | |destruct C].
  - cbn [start_at]. rewrite (update_limits_min r 0 None W) by discriminate.
    destruct W as (Hs & Hn & Hstop). set (r' := mkRange _ _ _ _ _).
    assert (W' : wf_range r') by (unfold r', wf_range; cbn; lia).
    exists (CRange r'). split; [reflexivity|]. split; [exact W'|]. split; [reflexivity|].
    exists (r_start r). split.
    + cbn [c_ints]. rewrite r_values_prog by (unfold wf_range; auto). rewrite znth_progression by lia. f_equal. lia.
    + apply represents_exact. cbn [c_values]. f_equal. cbn [c_ints]. rewrite !r_values_prog by (unfold wf_range; auto).
      unfold r'. cbn [r_start r_step r_len]. unfold progression. rewrite map_map. apply map_ext. intros; lia.
  - cbn [start_at a_update_limits c_ints] in *. destruct (list_min v) as [x|] eqn:M; [|destruct v; [congruence|discriminate]].
    destruct (get_coord_represents k (map (fun y => y + (0 - x)) v)) as (c' & E & R & W'). rewrite E. exists c'. split; [reflexivity|]. split; [apply wf_okc, W'|].
    split; [rewrite <- (c_len_values c' (wf_okc _ W')), (proj1 R), zlen_map; reflexivity|].
    exists x. cbn [c_ints]. split; [apply list_min_least; exact M|]. rewrite (map_ext _ (fun y => y + (0 - x))) by (intros; lia). exact R.
  - cbn [start_at a_update_limits c_ints] in *. destruct (list_min v) as [x|] eqn:M; [|destruct v; [congruence|discriminate]].
    destruct (get_coord_represents k (map (fun y => y + (0 - x)) v)) as (c' & E & R & W'). rewrite E. exists c'. split; [reflexivity|]. split; [apply wf_okc, W'|].
    split; [rewrite <- (c_len_values c' (wf_okc _ W')), (proj1 R), zlen_map; reflexivity|].
    exists x. cbn [c_ints]. split; [apply list_min_least; exact M|]. rewrite (map_ext _ (fun y => y + (0 - x))) by (intros; lia). exact R.
Qed.
Lemma rebased_recf c c' c2 : okc c' -> recf (M1 c') = M1 c2 -> rebased c c' -> rebased c c2.
Proof.
  intros K E (o & H & R). destruct (recoord_1 c' K) as (c3 & E3 & _ & _ & _ & _ & T). unfold recf in E. rewrite E3 in E. injection E as ->.
  exists o. split; [exact H|]. apply T, R.
Qed.

(** ** The whole *)
Definition stackb {A} (free : option string) (first p : patch A) : bool := goes free true (p_cm first) (p_cm p).
Lemma stackb_spec {A} free (first p : patch A) : stackb free first p = true <-> stackable free first p.
Proof.
  unfold stackb. rewrite goes_spec. unfold stackable, agree_but. split; intros H n a b E1 E2; destruct (H n a b E1 E2) as [Q|[Q1 Q2]]; auto.
Qed.
Lemma stack_filter {A} D free (first : patch A) t : (forall p, In p (first :: t) -> cm_dims (p_cm p) = D) ->
  filter_r (fun p => both (check_dims (p_cm first) (p_cm p) LWarn false) (check_coords (p_cm first) (p_cm p) LWarn free true)) (first :: t) =
    Ok (filter (stackb free first) (first :: t)).
Proof.
  intros H. apply filter_r_ok. intros p I. apply check_both. rewrite (H first (or_introl eq_refl)), (H p I). reflexivity.
Qed.
Lemma stack_filter_raise {A} D free (first : patch A) t : (forall p, In p (first :: t) -> cm_dims (p_cm p) = D) ->
  (forall p, In p t -> stackable free first p) ->
  filter_r (fun p => both (check_dims (p_cm first) (p_cm p) LRaise false) (check_coords (p_cm first) (p_cm p) LRaise free true)) (first :: t) =
    Ok (filter (stackb free first) (first :: t)).
Proof.
  intros H S. apply filter_r_ok. intros p I. rewrite check_both_raise by (rewrite (H first (or_introl eq_refl)), (H p I); reflexivity).
  change (goes free true (p_cm first) (p_cm p)) with (stackb free first p).
  assert (stackb free first p = true) as ->; [|reflexivity]. apply stackb_spec. destruct I as [->|I]; [|apply S, I].
  intros n a b E1 E2. left. rewrite E1 in E2. injection E2 as <-. apply same_coord_refl.
Qed.
Lemma stack_raise_same {A} zero add D free (first : patch A) t : (forall p, In p (first :: t) -> cm_dims (p_cm p) = D) ->
  (forall p, In p t -> stackable free first p) ->
  stack zero add free LRaise (first :: t) = stack zero add free LWarn (first :: t).
Proof. intros H S. unfold stack. rewrite (stack_filter_raise D free first t H S), (stack_filter D free first t H). reflexivity. Qed.
Lemma stack_raise_err {A} zero add free (first : patch A) t p : In p t -> match free with Some d => In d (cm_dims (p_cm first)) | None => True end ->
  ~ (cm_dims (p_cm p) = cm_dims (p_cm first) /\ stackable free first p) ->
  stack zero add free LRaise (first :: t) = Err IncompatiblePatchError.
Proof.
  intros I Fr H. unfold stack.
  assert ((match free with Some d => negb (mem d (cm_dims (p_cm first))) | None => false end) = false) as ->.
  { destruct free as [d|]; [|reflexivity]. apply Bool.negb_false_iff, mem_In', Fr. }
  assert (CB : forall q, both (check_dims (p_cm first) (p_cm q) LRaise false) (check_coords (p_cm first) (p_cm q) LRaise free true) =
     if strs_eqb (cm_dims (p_cm first)) (cm_dims (p_cm q)) && stackb free first q then Ok true else Err IncompatiblePatchError).
  { intros q. destruct (strs_eqb (cm_dims (p_cm first)) (cm_dims (p_cm q))) eqn:E; cbn [andb].
    - apply check_both_raise. apply strs_eqb_eq, E.
    - unfold check_dims. rewrite E. reflexivity. }
  rewrite (filter_r_err _ IncompatiblePatchError p); [reflexivity| |right; exact I|].
  - intros q _. rewrite CB. destruct (_ && _); auto.
  - rewrite CB. destruct (_ && _) eqn:Q; [|reflexivity]. exfalso. apply andb_prop in Q as [Q1 Q2]. apply H. split; [symmetry; apply strs_eqb_eq, Q1|apply stackb_spec, Q2].
Qed.
Lemma stack_no_dim {A} zero add d lv (first : patch A) t : ~ In d (cm_dims (p_cm first)) ->
  stack zero add (Some d) lv (first :: t) = Err PatchCoordinateError.
Proof. intros N. unfold stack. assert (mem d (cm_dims (p_cm first)) = false) as -> by (apply mem_false, N). reflexivity. Qed.

Lemma stackable_shape {A} D free (first : patch A) ps p : uniform D ps -> In first ps -> In p ps -> stackable free first p ->
  nd_shape (p_data p) = nd_shape (p_data first).
Proof.
  intros U I0 I S. assert (Q : forall q, In q ps -> stackable free first q -> nd_shape (p_data q) = map (fun e => length_of e first) D).
  { intros q Iq Sq. pose proof (wp_shape _ (un_wf _ _ U q Iq)) as F. rewrite (un_dims _ _ U q Iq) in F.
    assert (G : forall e n, In e D -> dim_len (p_cm q) e n -> n = length_of e first).
    { intros e n Ie (ce & Ee & Le).
      destruct (wf_dim_coord (p_cm first) e (wp_cm _ (un_wf _ _ U first I0))) as (c1 & E1 & _ & _); [rewrite (un_dims _ _ U first I0); exact Ie|].
      unfold length_of. rewrite E1. destruct (Sq e _ _ E1 Ee) as [X|[_ X]]; [apply same_coord_shape in X|]; cbn [m_shape] in X; congruence. }
    clear - F G. induction F as [|e n D' s' H F IH]; [reflexivity|]. cbn [map]. f_equal; [apply G; [left; reflexivity|exact H]|].
    apply IH. intros e' n' I. apply G. right; exact I. }
  rewrite (Q p I S), (Q first I0); [reflexivity|]. intros n a b E1 E2. left. rewrite E1 in E2. injection E2 as <-. apply same_coord_refl.
Qed.
Lemma stack_sum {A} (zero : A) add D free (first : patch A) t : uniform D (first :: t) ->
  exists arr, fold_left (fun acc p => do a <- acc; nd_map2 add a (p_data p)) (filter (stackb free first) (first :: t))
      (Ok (mkNd (nd_shape (p_data first)) (map (fun _ => zero) (nd_flat (p_data first))))) = Ok arr /\
    wf_nd arr /\ summed zero add (filter (stackb free first) (first :: t)) (nd_shape (p_data first)) arr.
Proof.
  intros U. assert (I0 : In first (first :: t)) by (left; reflexivity).
  destruct (zeros_ok zero (p_data first) (wp_nd _ (un_wf _ _ U first I0))) as [Wz Gz].
  destruct (sum_ok add (nd_shape (p_data first)) (filter (stackb free first) (first :: t)) _ Wz eq_refl) as (arr & E & W & S & G).
  - intros p I. apply filter_In in I as [I Q]. apply stackb_spec in Q. split; [apply (wp_nd _ (un_wf _ _ U p I))|]. eapply stackable_shape; eauto.
  - exists arr. split; [exact E|]. split; [exact W|]. split; [exact S|]. intros ix Hx. destruct (G ix Hx) as (vs & z & F & Z1 & Q).
    exists vs. split; [exact F|]. rewrite (Gz _ _ Z1) in Q. exact Q.
Qed.

Lemma stack_fixed {A} (zero : A) add D (first : patch A) t : uniform D (first :: t) ->
  exists kept out, selects (stackable None first) (first :: t) kept /\ stack zero add None LWarn (first :: t) = Ok out /\
    wf_patch out /\ p_cm out = p_cm first /\ summed zero add kept (nd_shape (p_data first)) (p_data out).
Proof.
  intros U. assert (I0 : In first (first :: t)) by (left; reflexivity). destruct (stack_sum zero add D None first t U) as (arr & E & W & S).
  pose proof (un_wf _ _ U first I0) as W0.
  exists (filter (stackb None first) (first :: t)), (mkPatch (p_cm first) arr).
  split; [apply selects_filter; intros p _; apply stackb_spec|]. split.
  - unfold stack. rewrite (stack_filter D None first t (un_dims _ _ U)). cbn [bind]. rewrite E. cbn [bind]. unfold new_patch.
    rewrite (shape_of (p_cm first) (nd_shape arr) (wp_cm _ W0) (wp_some _ W0)); [|rewrite (proj1 S); apply (wp_shape _ W0)].
    cbn [bind]. rewrite (proj2 (CmProofs.zlist_eqb_eq _ _) eq_refl). reflexivity.
  - split; [split; cbn [p_cm p_data]; [apply (wp_cm _ W0)|exact W|apply (wp_some _ W0)|rewrite (proj1 S); apply (wp_shape _ W0)]|]. auto.
Qed.

Lemma stack_free {A} (zero : A) add D d c (first : patch A) t : uniform D (first :: t) -> plain_names (p_cm first) -> In d D ->
  assoc d (cm_coords (p_cm first)) = Some (M1 c) -> concrete c -> c_ints c <> [] ->
  exists kept out, selects (stackable (Some d) first) (first :: t) kept /\ stack zero add (Some d) LWarn (first :: t) = Ok out /\
    wf_patch out /\ cm_dims (p_cm out) = D /\ summed zero add kept (nd_shape (p_data first)) (p_data out) /\
    (exists c', assoc d (cm_coords (p_cm out)) = Some (M1 c') /\ rebased c c') /\
    (forall n m, n <> d -> assoc n (cm_coords (p_cm first)) = Some m -> keeps first out n) /\
    (forall n, assoc n (cm_coords (p_cm first)) = None -> lacks_coord out n).
Proof.
  intros U PN J Ec Cc NE. assert (I0 : In first (first :: t)) by (left; reflexivity). destruct (stack_sum zero add D (Some d) first t U) as (arr & E & W & S).
  pose proof (un_wf _ _ U first I0) as W0. pose proof (wp_cm _ W0) as Wc. pose proof (un_dims _ _ U first I0) as D0.
  assert (J0 : In d (cm_dims (p_cm first))) by (rewrite D0; exact J).
  destruct (rebase_ok c (wf_vals _ Wc _ _ Ec) Cc NE) as (c' & EA & K & L & RB).
  destruct (one_update (p_cm first) d c c' Wc PN J0 Ec K) as (cm & EU & W' & D' & Nd & Gone & Kept & Dm).
  destruct (recf_M1 c' K) as (c2 & R1 & R2 & _).
  assert (NQ : forall n, ~ (In d (dims_of (p_cm first) n) /\ c_len c <> c_len c')) by (intros n [_ Q]; lia).
  assert (SH : Forall2 (dim_len cm) (cm_dims cm) (nd_shape arr)).
  { rewrite D', (proj1 S). eapply Forall2_impl_in; [|apply (wp_shape _ W0)]. cbv beta. intros e n Ie (ce & Ee & Le).
    destruct (String.eqb_spec e d) as [->|Ne].
    - exists c2. rewrite Nd, R1. split; [reflexivity|]. rewrite Ec in Ee. injection Ee as <-. lia.
    - destruct (recf_M1 ce) as (ce2 & Q1 & Q2 & _); [apply wf_okc; exact (wf_vals _ Wc _ _ Ee)|].
      exists ce2. rewrite (Kept e Ne (NQ e)), Ee. cbn [option_map]. rewrite Q1. split; [reflexivity|lia]. }
  assert (NN : cm_dims cm <> []) by (rewrite D'; apply (wp_some _ W0)).
  exists (filter (stackb (Some d) first) (first :: t)), (mkPatch cm arr).
  split; [apply selects_filter; intros p _; apply stackb_spec|]. split.
  - unfold stack. assert (mem d (cm_dims (p_cm first)) = true) as -> by (apply mem_In', J0). cbn [negb].
    rewrite (stack_filter D (Some d) first t (un_dims _ _ U)). cbn [bind]. rewrite E. cbn [bind]. rewrite Ec, EA. cbn [bind]. rewrite EU. cbn [bind].
    unfold new_patch. rewrite (shape_of cm (nd_shape arr) W' NN SH). cbn [bind]. rewrite (proj2 (CmProofs.zlist_eqb_eq _ _) eq_refl). reflexivity.
  - split; [split; cbn [p_cm p_data]; assumption|]. cbn [p_cm p_data]. split; [congruence|]. split; [exact S|]. split; [exists c2; rewrite Nd, R1; split; [reflexivity|eapply rebased_recf; eauto]|].
    split.
    + intros n m N Em. exists m, (recf m). cbn [p_cm]. rewrite (Kept n N (NQ n)), (Dm n (or_intror (NQ n))), Em. cbn [option_map].
      pose proof (wf_vals _ Wc _ _ Em) as Wm. split; [reflexivity|]. split; [reflexivity|]. split; [|reflexivity].
      apply carried_recf; [apply wf_okm, Wm|apply carried_refl, Wm].
    + intros n En. assert (N : n <> d) by congruence. split; cbn [p_cm]; [rewrite (Kept n N (NQ n)), En; reflexivity|].
      rewrite (Dm n (or_intror (NQ n))). destruct (assoc n (cm_dmap (p_cm first))) as [ds|] eqn:Ed; [|reflexivity].
      destruct (con_coord _ (wf_con _ Wc) n ds Ed) as (m & Em & _). congruence.
Qed.
