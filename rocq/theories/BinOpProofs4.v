(** Lemmas behind BinOpProps.v: aligning two patches. *)
From Verif Require Import Base BaseFacts CoordModel CoordSpec CoordProofs CoordProofs2 CoordProofs3
  CoordProofs4 CoordProofs5 NdModel NdSpec NdProofs NdProofs2 NdProofs3 FrameModel FrameProofs5 ChunkModel CmModel CmSpec
  CmProofs CmProofs2 CmProofs3 CmProofs4 CmProofs8 CmProofs10 CmProofs12 CmProofs13 CmProofs15 BinOpModel BinOpSpec BinOpProofs BinOpProofs2 BinOpProofs3.
From Coq Require Import Strings.String ZifyBool Sorting.Permutation Sorting.Sorted.
Ltac Zify.zify_post_hook ::= Z.div_mod_to_equations.
Local Open Scope Z_scope.
Local Open Scope list_scope.

Lemma mk_range_kind k a b s r : mk_range k a b s = Ok r -> r_kind r = k.
Proof.
  unfold mk_range. cbv zeta. destruct (_ =? _); [|destruct (_ =? 0); [discriminate|]]; destruct (_ =? _); try discriminate; intros [= <-]; reflexivity.
Qed.
Lemma change_length_kind r n c : change_length r n = Ok c -> concrete c -> c_kind c = r_kind r.
Proof.
  unfold change_length. cbv zeta. intros H C. destruct (n <? 0); [discriminate|].
  destruct (r_len r =? n); [injection H as <-; reflexivity|]. destruct (n =? 0); [injection H as <-; destruct C|].
  match type of H with (if c_len ?o =? _ then _ else _) = _ => destruct (c_len o =? n); [|discriminate]; injection H as <- end.
  destruct (all_close _ _ _); [reflexivity|]. unfold r_new in *. destruct (mk_range _ _ _ _) eqn:E; [|destruct C].
  apply mk_range_kind in E. exact E.
Qed.
Lemma get_coord_kind k v c : get_coord_data k v = Ok c -> concrete c -> c_kind c = k.
Proof.
  destruct v as [|x [|y v]]; intros H C.
  - injection H as <-. destruct C.
  - injection H as <-. reflexivity.
  - unfold get_coord_data in H. cbv zeta in H. destruct (is_monotonic _); [|injection H as <-; reflexivity].
    destruct (_ || _); [|injection H as <-; reflexivity].
    match type of H with bind ?x _ = _ => destruct x eqn:E; cbn [bind] in H; [|discriminate] end.
    rewrite (change_length_kind _ _ _ H C). apply (mk_range_kind _ _ _ _ _ E).
Qed.

(** A comparable coordinate stays what it is when inferred anew. *)
Lemma again_same c m' : wf_coord c -> concrete c -> spread (c_ints c) -> again (M1 c) m' ->
  exists c1, m' = M1 c1 /\ concrete c1 /\ c_ints c1 = c_ints c /\ c_kind c1 = c_kind c.
Proof.
  intros W C S [->| ->]; [exists c; auto|].
  assert (NE : c_ints c <> []).
  { intros Q. pose proof (c_ints_len c (wf_okc _ W) C) as L. rewrite Q in L. destruct c as [r|k v|k v|n]; cbn in *; try contradiction.
    - destruct W as (_ & P & _). unfold zlen in L; cbn in L; lia.
    - destruct W; congruence. }
  destruct (recoord_1 c (wf_okc _ W)) as (c' & E & W' & L & R & _ & _). unfold recf. rewrite E. exists c'. split; [reflexivity|].
  specialize (R C). pose proof (represents_concrete c' _ W' R NE) as C'. split; [exact C'|]. split.
  - apply (values_ints c' (c_ints c) (wf_okc _ W')); [|exact NE]. apply R. exact S.
  - destruct c as [r|k v|k v|n]; cbn [recoord] in E; try (destruct C; fail).
    + injection E as <-. reflexivity.
    + destruct (get_coord_data k v) eqn:G; cbn [bind] in E; [|discriminate]. injection E as ->. apply (get_coord_kind _ _ _ G C').
    + destruct (get_coord_data k v) eqn:G; cbn [bind] in E; [|discriminate]. injection E as ->. apply (get_coord_kind _ _ _ G C').
Qed.

Lemma stretches_part c : stretches c = true -> c = CPart 1.
Proof. destruct c; cbn; try discriminate. intros H. f_equal. lia. Qed.
Lemma concrete_stretches c : concrete c -> stretches c = false.
Proof. destruct c; cbn; tauto. Qed.
Lemma again_part n m' : again (M1 (CPart n)) m' -> m' = M1 (CPart n).
Proof. intros [->| ->]; reflexivity. Qed.
Lemma again_stretches c c1 : wf_coord c -> again (M1 c) (M1 c1) -> stretches c1 = stretches c.
Proof.
  intros W H. destruct c as [r|k v|k v|n].
  4: { apply again_part in H. injection H as ->. reflexivity. }
  all: destruct (again_facts (M1 _) _ W H) as (_ & _ & P & _); destruct c1; cbn in P |- *; try reflexivity; discriminate.
Qed.

Lemma align_okc argsort a b x : wf_coord a -> wf_coord b -> align_to argsort a b = Ok x ->
  okc (fst (fst (fst x))) /\ okc (snd (fst (fst x))).
Proof.
  intros Wa Wb. unfold align_to. cbv zeta. destruct (c_eqb a b); [intros [= <-]; cbn; auto using wf_okc|].
  assert (O : forall c l y, wf_coord c -> order_values argsort c l = Ok y -> okc (fst y)).
  { intros c l y W H. unfold order_values in H.
    destruct c; try discriminate; (destruct (order_index _ _ _) as [inds|]; [|discriminate];
      match type of H with bind ?e _ = _ => destruct e eqn:E; cbn [bind] in H; [|discriminate] end; injection H as <-; cbn [fst]; eapply getitem_okc; eauto). }
  intros H. 
  destruct a, b; try (destruct (_ || _); [|discriminate]; injection H as <-; cbn [fst snd]; auto using wf_okc);
  (match type of H with bind ?e _ = _ => destruct e as [y|] eqn:E1; cbn [bind] in H; [|discriminate] end;
   match type of H with bind ?e _ = _ => destruct e as [z|] eqn:E2; cbn [bind] in H; [|discriminate] end;
   injection H as <-; cbn [fst snd]; split; [apply (O _ _ _ Wa E1)|apply (O _ _ _ Wb E2)]).
Qed.

Lemma lined_self {A} (p : patch A) : wf_patch p -> plain_names (p_cm p) -> lined p p (cm_dims (p_cm p)) (pick0 (p_cm p)).
Proof.
  intros W PN.
  assert (LEN : forall d, In d (cm_dims (p_cm p)) -> exists c, assoc d (cm_coords (p_cm p)) = Some (M1 c) /\ wf_coord c /\ pick0 (p_cm p) d = zrange (c_len c) /\ zlen (pick0 (p_cm p) d) = c_len c).
  { intros d J. destruct (wf_dim_coord _ d (wp_cm _ W) J) as (c & C & Wc & _). exists c. split; [exact C|]. split; [exact Wc|].
    pose proof (c_len_nonneg c Wc). unfold pick0. rewrite C. split; [reflexivity|]. rewrite zlen_zrange. lia. }
  split; auto.
  - intros pos P. unfold data_at. f_equal. apply map_ext_in. intros d J. destruct (LEN d J) as (c & C & _ & P0 & L). specialize (P d J). rewrite L in P. rewrite P0.
    symmetry. apply zget_range, P.
  - intros d J. destruct (LEN d J) as (c & C & _ & _ & L). exists c. auto.
  - intros d J N. contradiction.
  - intros d c J C. exists c. split; [exact C|]. destruct (LEN d J) as (c' & C' & Wc & -> & _). rewrite C in C'. injection C' as <-.
    destruct (carried_refl (M1 c) Wc) as (c2 & ps & [= <-] & [= <-] & H). exact H.
  - intros n m' N C. exists m'. split; [exact C|]. split; [apply carried_refl, (wf_vals _ (wp_cm _ W) _ _ C)|]. auto.
  - intros n m ds N C _. split; [auto|]. intros _. congruence.
Qed.

(** What an alignment found for one dimension is. *)
Definition al_good (c1 c2 : coord) (a : aligning) : Prop :=
  okc (al_c1 a) /\ okc (al_c2 a) /\ exists ps1 ps2,
    indexer_positions (c_len c1) (al_i1 a) = Some ps1 /\ indexer_positions (c_len c2) (al_i2 a) = Some ps2 /\
    zlen ps1 = c_len (al_c1 a) /\ zlen ps2 = c_len (al_c2 a) /\
    (((stretches c1 = true \/ stretches c2 = true) /\ al_c1 a = c1 /\ al_c2 a = c2 /\ ps1 = zrange (c_len c1) /\ ps2 = zrange (c_len c2)) \/
     (concrete c1 /\ concrete c2 /\ exists common, ascending common /\ (forall x, In x common <-> In x (c_ints c1) /\ In x (c_ints c2)) /\
        gather (c_ints c1) ps1 = Some common /\ gather (c_ints c2) ps2 = Some common /\ represents (al_c1 a) common /\ represents (al_c2 a) common)).

Lemma align_dim_ok argsort cm1 cm2 d c1 c2 : valid_argsort argsort -> wf_coord c1 -> wf_coord c2 ->
  assoc d (cm_coords cm1) = Some (M1 c1) -> assoc d (cm_coords cm2) = Some (M1 c2) ->
  (concrete c1 /\ concrete c2 /\ NoDup (c_ints c1) /\ NoDup (c_ints c2) /\ (confusable c1 c2 -> c_ints c1 = c_ints c2)) \/
  stretches c1 = true \/ stretches c2 = true ->
  (align_dim argsort cm1 cm2 d = Ok [] /\
    ((concrete c1 /\ concrete c2 /\ c_ints c1 = c_ints c2) \/ ((stretches c1 = true \/ stretches c2 = true) /\ c1 = c2))) \/
  exists a, align_dim argsort cm1 cm2 d = Ok [(d, a)] /\ al_good c1 c2 a.
Proof.
  intros VA W1 W2 C1 C2 H. unfold align_dim. rewrite C1, C2. destruct (c_eqb c1 c2) eqn:E.
  - left. split; [reflexivity|]. pose proof (proj1 (c_eqb_spec _ _) E) as CF. destruct H as [(K1 & K2 & _ & _ & K)|H]; [left; auto|right].
    split; [exact H|]. destruct CF as [CF|(k & v & w & [-> | ->] & [-> | ->] & _)]; [exact CF|..]; destruct H; discriminate.
  - right. assert (NC : ~ confusable c1 c2) by (intros Q; apply c_eqb_spec in Q; congruence).
    destruct H as [(K1 & K2 & N1 & N2 & _)|H].
    + destruct (align_to_spec argsort c1 c2 VA W1 W2 K1 K2 N1 N2 NC) as (a' & b' & ia & ib & common & EA & AS & IN & P1 & P2 & R1 & R2).
      rewrite EA. cbn [bind]. eexists. split; [reflexivity|]. destruct (align_okc _ _ _ _ W1 W2 EA) as [O1 O2]. cbn [fst snd] in O1, O2.
      split; [exact O1|]. split; [exact O2|]. cbn [al_c1 al_c2 al_i1 al_i2]. unfold np_index in P1, P2.
      rewrite (c_ints_len c1 (wf_okc _ W1) K1) in P1. rewrite (c_ints_len c2 (wf_okc _ W2) K2) in P2.
      destruct (indexer_positions (c_len c1) ia) as [ps1|] eqn:I1; [|discriminate]. destruct (indexer_positions (c_len c2) ib) as [ps2|] eqn:I2; [|discriminate].
      exists ps1, ps2. split; [reflexivity|]. split; [reflexivity|].
      split; [rewrite (represents_len _ _ O1 R1), (gather_some_len _ _ _ P1); reflexivity|].
      split; [rewrite (represents_len _ _ O2 R2), (gather_some_len _ _ _ P2); reflexivity|]. right. split; [exact K1|]. split; [exact K2|]. exists common. auto 8.
    + assert (align_to argsort c1 c2 = Ok (c1, c2, simple_slice None None, simple_slice None None)) as EA.
      { rewrite align_to_partial.
        - assert ((c_len c1 =? 1) || (c_len c2 =? 1) || (c_len c1 =? c_len c2) = true) as ->; [|reflexivity].
          destruct H as [H|H]; apply stretches_part in H; subst; cbn; [reflexivity|]. destruct (c_len c1 =? 1); reflexivity.
        - intros ->. apply NC. left. reflexivity.
        - intros [X Y]. apply concrete_stretches in X, Y. destruct H; congruence. }
      rewrite EA. cbn [bind]. eexists. split; [reflexivity|]. split; [apply wf_okc, W1|]. split; [apply wf_okc, W2|]. cbn [al_c1 al_c2 al_i1 al_i2].
      pose proof (c_len_nonneg c1 W1). pose proof (c_len_nonneg c2 W2).
      exists (zrange (c_len c1)), (zrange (c_len c2)). split; [apply full_positions; assumption|]. split; [apply full_positions; assumption|].
      rewrite !zlen_zrange. split; [lia|]. split; [lia|]. left. auto.
Qed.
