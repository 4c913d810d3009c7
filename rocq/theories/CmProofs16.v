(** Lemmas behind CmProps.v: the manager and the data stay consistent under every
    sequence of calls. *)
From Verif Require Import Base BaseFacts CoordModel CoordSpec CoordProofs CoordProofs2 CoordProofs3
  CoordProofs4 CoordProofs5 NdModel NdSpec NdProofs NdProofs2 NdProofs3 FrameModel FrameProofs5 ChunkModel CmModel CmSpec
  CmProofs CmProofs2 CmProofs3 CmProofs14.
From Coq Require Import Strings.String ZifyBool Sorting.Permutation Sorting.Sorted.
Ltac Zify.zify_post_hook ::= Z.div_mod_to_equations.
Local Open Scope Z_scope.
Local Open Scope list_scope.

Definition allok (l : list (string * mcoord)) : Prop := forall n m, In (n, m) l -> nd_coord m.
Definition soundcm (cm : cman) : Prop := consistent cm /\ allok (cm_coords cm).

Lemma bind_ok {A B} (x : result A) (f : A -> result B) r : bind x f = Ok r -> exists a, x = Ok a /\ f a = Ok r.
Proof. destruct x; cbn; [eauto|discriminate]. Qed.
Ltac step H := let a := fresh "a" in let E := fresh "E" in apply bind_ok in H as (a & E & H).

Lemma allok_filter f l : allok l -> allok (filter f l).
Proof. intros H n m J. apply filter_In in J. eapply H, J. Qed.
Lemma in_assoc_set {A} k (v : A) l n m : In (n, m) (assoc_set k v l) -> (n = k /\ m = v) \/ In (n, m) l.
Proof.
  induction l as [|[k' w] t IH]; cbn [assoc_set].
  - intros [[= <- <-]|[]]. auto.
  - destruct (String.eqb_spec k k') as [->|].
    + intros [[= <- <-]|J]; [auto|right; right; exact J].
    + intros [J|J]; [right; left; exact J|]. destruct (IH J) as [K|K]; [auto|right; right; exact K].
Qed.
Lemma allok_set k v l : nd_coord v -> allok l -> allok (assoc_set k v l).
Proof. intros V H n m J. apply in_assoc_set in J as [[_ ->]|J]; [exact V|eapply H, J]. Qed.
Lemma allok_assoc n m l : allok l -> assoc n l = Some m -> nd_coord m.
Proof. intros H E. eapply H, assoc_in, E. Qed.
Lemma allok_set_all new l : allok new -> allok l -> allok (set_all new l).
Proof.
  unfold set_all. revert l. induction new as [|[n m] t IH]; intros l H1 H2; cbn [fold_left fst snd]; [exact H2|].
  apply IH; [intros x y J; eapply H1; right; exact J|]. apply allok_set; [eapply H1; left; reflexivity|exact H2].
Qed.
Lemma allok_map_result f l l' : map_result f l = Ok l' -> allok l ->
  (forall e e', In e l -> nd_coord (snd e) -> f e = Ok e' -> nd_coord (snd e')) -> allok l'.
Proof.
  intros E H K. apply map_result_Forall2 in E.
  assert (H' : forall e, In e l -> nd_coord (snd e)) by (intros [n m] J; eapply H, J). clear H.
  induction E as [|x y l l' Exy F IH]; intros n m J; [destruct J|]. destruct J as [->|J].
  - eapply (K x (n, m)); [left; reflexivity|apply H'; left; reflexivity|exact Exy].
  - eapply IH; [|intros e J'; apply H'; right; exact J'|exact J]. intros e e' J1. apply K. right; exact J1.
Qed.

Lemma build_sound dims cmap dmap cm : allok cmap -> build_cm dims cmap dmap = Ok cm -> soundcm cm.
Proof.
  intros H E. destruct (proj2 (build_cm_accepted dims cmap dmap) cm E) as [Acc ->]. split; [|exact H].
  apply accepted_consistent; [exact Acc|]. intros n m M. pose proof (allok_assoc n m _ H M) as Q. destruct m; exact Q.
Qed.

Lemma new_patch_sound {A} cm (a : nd A) p : soundcm cm -> new_patch cm a = Ok p -> sound p.
Proof.
  intros [C K]. unfold new_patch. intros H. step H. destruct (zlist_eqb a0 (nd_shape a)) eqn:Z; [|discriminate].
  apply zlist_eqb_eq in Z. subst a0. injection H as <-. split; [exact C|]. split; [exact K|]. cbn [p_cm p_data].
  unfold cm_shape in E. destruct (cm_dims cm) as [|d ds] eqn:D; [congruence|].
  apply map_result_Forall2 in E. eapply Forall2_impl_in; [|exact E]. cbv beta. intros x n J Q.
  destruct (con_dim _ C x) as [[c Cx] _]; [rewrite D; exact J|]. rewrite Cx in Q. cbn in Q. injection Q as <-. exists c; auto.
Qed.
Lemma sound_cm {A} (p : patch A) : sound p -> soundcm (p_cm p).
Proof. intros (C & K & _). split; assumption. Qed.

Lemma recoord_nd m m' : recoord m = Ok m' -> nd_coord m -> nd_coord m'.
Proof.
  destruct m as [[r|k v|k v|n]|k a|s]; cbn [recoord]; intros H N.
  - injection H as <-. exact N.
  - step H. injection H as <-. exact Logic.I.
  - step H. injection H as <-. exact Logic.I.
  - injection H as <-. exact N.
  - injection H as <-. unfold get_coord_nd. destruct (size (nd_shape a) =? 0); exact N.
  - injection H as <-. exact N.
Qed.
Lemma nd_index_ndim {A} (a b : nd A) ax ix : nd_index a ax ix = Some b -> List.length (nd_shape b) = List.length (nd_shape a).
Proof.
  unfold nd_index. destruct (nth_error (nd_shape a) ax) eqn:N; [|discriminate]. destruct (indexer_positions z ix); [|discriminate].
  unfold nd_take. rewrite N. unfold nd_build. destruct (traverse _ _); [|discriminate]. intros [= <-]. cbn [nd_shape]. apply put_length.
Qed.
Lemma get_coord_nd_nd k a : List.length (nd_shape a) <> 1%nat -> nd_coord (get_coord_nd k a).
Proof. intros N. unfold get_coord_nd. destruct (size (nd_shape a) =? 0); exact N. Qed.
Lemma mc_index_nd m ax ix m' : mc_index m ax ix = Ok m' -> nd_coord m -> nd_coord m'.
Proof.
  destruct m as [c|k a|s]; intros H N.
  - assert (exists c', m' = M1 c') as [c' ->]; [|exact Logic.I].
    destruct c as [r|k v|k v|n], ax as [|ax]; cbn [mc_index] in H; try discriminate.
    1-3: match type of H with match ?x with _ => _ end = _ => destruct x; [|discriminate] end; step H; injection H as <-; eauto.
    destruct (indexer_positions n ix); [|discriminate]. injection H as <-. eauto.
  - cbn [mc_index] in H. destruct (nd_index a ax ix) as [b|] eqn:B; [|discriminate]. injection H as <-.
    apply get_coord_nd_nd. rewrite (nd_index_ndim _ _ _ _ B). exact N.
  - cbn [mc_index] in H. destruct (nth_error s ax); [|discriminate]. destruct (indexer_positions z ix); [|discriminate].
    injection H as <-. cbn. rewrite put_length. exact N.
Qed.
Lemma mc_getitem_nd m ax ix m' : mc_getitem m ax ix = Ok m' -> nd_coord m -> nd_coord m'.
Proof.
  destruct m as [c|k a|s]; intros H N; [destruct c as [r|k v|k v|n]| |]; cbn [mc_getitem] in H;
    try (eapply mc_index_nd; eassumption).
  - destruct (np_index v ix); [|discriminate]. injection H as <-. exact Logic.I.
  - destruct (np_index v ix); [|discriminate]. injection H as <-. exact Logic.I.
  - destruct (nd_index a ax ix) as [b|] eqn:B; [|discriminate]. injection H as <-. cbn. rewrite (nd_index_ndim _ _ _ _ B). exact N.
Qed.

(** ** Update *)
Lemma cval_coord_nd v m : cval_coord v = Ok m -> nd_cval v -> nd_coord m.
Proof.
  destruct v as [m0|k l|k a|n]; cbn [cval_coord nd_cval]; intros H N.
  - eapply recoord_nd; eassumption.
  - step H. injection H as <-. exact Logic.I.
  - injection H as <-. apply get_coord_nd_nd, N.
  - injection H as <-. exact Logic.I.
Qed.
Lemma coord_item_nd dims e m ds b : coord_item dims e = Ok (m, ds, b) -> nd_kval (snd e) -> nd_coord m.
Proof.
  unfold coord_item. destruct (snd e) as [|v|l v|x]; try discriminate; cbn [nd_kval].
  - destruct (mem (fst e) dims); [|discriminate]. intros H N. step H. injection H as <- _ _. eapply cval_coord_nd; eassumption.
  - destruct (negb _ && negb _); [discriminate|]. intros H N. step H. destruct (zlist_eqb _ _); [|discriminate].
    injection H as <- _ _. eapply cval_coord_nd; eassumption.
Qed.
Definition kok (kw : list (string * kval)) : Prop := forall e, In e kw -> nd_kval (snd e).
Lemma coord_items_nd dims kw : forall acc r, coord_items dims kw acc = Ok r -> kok kw -> allok (fst (fst acc)) -> allok (fst (fst r)).
Proof.
  induction kw as [|e t IH]; intros acc r H K Q; cbn [coord_items] in H; [injection H as <-; exact Q|].
  step H. destruct a as [[m ds] new], acc as [[c d] nd]. eapply IH; [exact H|intros x X; apply K; right; exact X|].
  cbn [fst]. apply allok_set; [|exact Q]. eapply coord_item_nd; [exact E|apply K; left; reflexivity].
Qed.
Lemma coord_dim_map_nd kw dims c d ds : coord_dim_map kw dims = Ok (c, d, ds) -> kok kw -> allok c.
Proof.
  unfold coord_dim_map. intros H K. step H. destruct a as [[c' d'] nd]. injection H as <- <- <-.
  apply (coord_items_nd _ _ _ _ E K). intros n m [].
Qed.
Lemma get_cm_sound kw dims shape cm : kok kw -> get_cm kw dims shape = Ok cm -> soundcm cm.
Proof.
  intros K H. unfold get_cm in H. step H. destruct a as [[c d] ds]. pose proof (coord_dim_map_nd _ _ _ _ _ E K) as Q.
  assert (B : build_cm ds c d = Ok cm -> soundcm cm) by (apply build_sound, Q).
  destruct shape as [s|]; [|apply B, H]. match type of H with (match ?x with _ => _ end) = _ => destruct x as [|mi mis] eqn:MI; [apply B, H|] end.
  clear B. step H. eapply build_sound; [|exact H]. clear H MI. revert E0 Q. generalize (mi :: mis). intros l.
  assert (G : forall l acc a, fold_left (fun acc n => do cd <- acc;
     match index_of n ds with
     | Some i => match nth_error s i with
                 | Some len => Ok (assoc_set n (M1 (CPart len)) (fst cd), assoc_set n [n] (snd cd)) | None => Err IndexError end
     | None => Err ValueError end) l acc = Ok a -> (forall x, acc = Ok x -> allok (fst x)) -> allok (fst a)).
  { clear. induction l as [|n t IH]; intros acc a; cbn [fold_left]; [intros -> H; apply H; reflexivity|].
    intros E H. eapply IH; [exact E|]. intros x X. step X. specialize (H _ E0).
    destruct (index_of n ds); [|discriminate]. destruct (nth_error s n0); [|discriminate]. injection X as <-. cbn [fst].
    apply allok_set; [exact Logic.I|exact H]. }
  intros F Q. eapply G; [exact F|]. intros x [= <-]. exact Q.
Qed.

Lemma drop_sound cm names x : soundcm cm -> drop_coords cm names = Ok x -> soundcm (fst x).
Proof.
  intros S. unfold drop_coords. destruct (existsb _ _); cbn [negb].
  - intros H. step H. injection H as <-. cbn [fst]. eapply build_sound; [|exact E]. apply allok_filter, S.
  - intros [= <-]. exact S.
Qed.
Lemma as_kwargs_ok' cm kw : soundcm cm -> as_kwargs cm = Ok kw -> kok kw.
Proof.
  intros [_ S] H e J. apply map_result_Forall2 in H.
  assert (Q : exists x, In x (cm_coords cm) /\ match assoc (fst x) (cm_dmap cm) with
     | Some ds => Ok (fst x, KTuple ds (VCoord (snd x))) | None => Err KeyError end = Ok e).
  { clear S. induction H as [|x y l l' E F IH]; [destruct J|]. destruct J as [->|J]; [exists x; split; [left; reflexivity|exact E]|].
    destruct (IH J) as (z & Z & Ez). exists z. split; [right; exact Z|exact Ez]. }
  destruct Q as ([n m] & X & E). cbn [fst snd] in E. destruct (assoc n (cm_dmap cm)); [|discriminate]. injection E as <-. cbn. eapply S, X.
Qed.
Lemma kok_set k v l : nd_kval v -> kok l -> kok (assoc_set k v l).
Proof. intros V H [n x] J. apply in_assoc_set in J as [[_ ->]|J]; [exact V|apply (H _ J)]. Qed.
Lemma kok_set_all new l : kok new -> kok l -> kok (set_all new l).
Proof.
  unfold set_all. revert l. induction new as [|[n m] t IH]; intros l H1 H2; cbn [fold_left fst snd]; [exact H2|].
  apply IH; [intros x J; apply H1; right; exact J|]. apply kok_set; [apply (H1 (n, m)); left; reflexivity|exact H2].
Qed.
Lemma update_limit_nd m attr x m' : update_limit m attr x = Ok m' -> nd_coord m -> nd_coord m'.
Proof.
  unfold update_limit. destruct (negb _); [discriminate|]. destruct m as [[r|k v|k v|n]|k a|s]; try discriminate.
  - destruct (_ && _); [intros [= <-]; auto|]. intros H N. step H. injection H as <-. exact Logic.I.
  - intros H N. step H. injection H as <-. exact Logic.I.
  - intros H N. step H. injection H as <-. exact Logic.I.
Qed.
Lemma apply_limits_ok limits : forall out r, apply_limits limits out = Ok r -> kok out -> kok r.
Proof.
  unfold apply_limits.
  assert (G : forall acc r, fold_left (fun acc e =>
      do o <- acc;
      match split_two (fst e) with
      | None => Err ValueError
      | Some (n, attr) =>
          match assoc n o with
          | None => Err KeyError
          | Some (KTuple ds v) =>
              match snd e, v with
              | KLimit x, VCoord m =>
                  do m' <- update_limit m attr x; Ok (assoc_set n (KTuple ds (VCoord m')) o)
              | _, _ => Err Unmodelled
              end
          | Some _ => Err Unmodelled
          end
      end) limits acc = Ok r -> (forall x, acc = Ok x -> kok x) -> kok r).
  { induction limits as [|e t IH]; intros acc r; cbn [fold_left]; [intros -> H; apply H; reflexivity|].
    intros E H. eapply IH; [exact E|]. intros x X. step X. specialize (H _ E0).
    destruct (split_two (fst e)) as [[n attr]|]; [|discriminate]. destruct (assoc n a) as [[| |ds v|]|] eqn:An; try discriminate.
    destruct (snd e); try discriminate. destruct v; try discriminate. step X. injection X as <-. apply kok_set; [|exact H]. cbn.
    eapply update_limit_nd; [exact E1|]. apply assoc_in in An. apply (H _ An). }
  intros out r F K. eapply G; [exact F|]. intros x [= <-]. exact K.
Qed.
Lemma update_sound cm kw cm' : soundcm cm -> kok kw -> cm_update cm kw = Ok cm' -> soundcm cm'.
Proof.
  intros S K. unfold cm_update. intros H. step H. destruct a as [[c d] dims]. step H. step H. step H. step H.
  eapply get_cm_sound; [|exact H]. eapply apply_limits_ok; [exact E3|]. apply kok_set_all.
  - intros e J. apply filter_In in J as [J _]. apply filter_In in J as [J _]. apply K, J.
  - eapply as_kwargs_ok'; [|exact E2]. eapply drop_sound; [exact S|exact E1].
Qed.

(** ** Select *)
Lemma with_dims_ok cm new kws : allok new -> with_dims cm new = Ok kws -> kok kws.
Proof.
  intros S H e J. apply map_result_Forall2 in H.
  assert (Q : exists x, In x new /\ match assoc (fst x) (cm_dmap cm) with
     | Some ds => Ok (fst x, KTuple ds (VCoord (snd x))) | None => Err KeyError end = Ok e).
  { clear S. induction H as [|x y l l' E F IH]; [destruct J|]. destruct J as [->|J]; [exists x; split; [left; reflexivity|exact E]|].
    destruct (IH J) as (z & Z & Ez). exists z. split; [right; exact Z|exact Ez]. }
  destruct Q as ([n m] & X & E). cbn [fst snd] in E. destruct (assoc n (cm_dmap cm)); [|discriminate]. injection E as <-. cbn. eapply S, X.
Qed.
Lemma select_one_ok cm op st e st' : select_one cm op st e = Ok st' -> allok (fst st) -> allok (fst st').
Proof.
  unfold select_one. destruct (assoc (fst e) (cm_coords cm)) as [[c| |]|]; try discriminate;
    destruct (assoc (fst e) (cm_dmap cm)) as [ds|]; try discriminate.
  intros H Q. step H. assert (Q' : allok (assoc_set (fst e) (M1 (fst a)) (fst st))) by (apply allok_set; [exact Logic.I|exact Q]).
  destruct ds as [|dim ds]; [injection H as <-; exact Q'|]. step H. injection H as <-. cbn [fst].
  eapply allok_map_result; [exact E0|exact Q'|]. intros [n m] e' _ N. cbn [fst snd] in *.
  destruct (String.eqb n (fst e)); [intros [= <-]; exact N|]. destruct (assoc n (cm_dmap cm)) as [l|]; [|discriminate].
  destruct (index_of dim l) as [ax|]; [|intros [= <-]; exact N]. intros X. step X. injection X as <-. cbn [snd]. eapply mc_index_nd; eassumption.
Qed.
Lemma select_loop_sound {A} op lists : forall cm (a : nd A) x, soundcm cm -> select_loop op lists cm a = Ok x -> soundcm (fst x).
Proof.
  induction lists as [|kw t IH]; intros cm a x S; cbn [select_loop]; [intros [= <-]; exact S|].
  intros H. step H. step H. step H. destruct (apply_indexers a 0 _); [|discriminate]. eapply IH; [|exact H].
  eapply update_sound; [exact S| |exact E1]. eapply with_dims_ok; [|exact E0].
  unfold indexers_and_coords in E.
  assert (G : forall kw acc r, fold_left (fun acc e => do st <- acc; select_one cm op st e) kw acc = Ok r ->
     (forall y, acc = Ok y -> allok (fst y)) -> allok (fst r)).
  { clear. induction kw as [|e t IH]; intros acc r; cbn [fold_left]; [intros -> H; apply H; reflexivity|].
    intros E H. eapply IH; [exact E|]. intros y Y. step Y. eapply select_one_ok; [exact Y|apply H, E0]. }
  eapply G; [exact E|]. intros y [= <-]. apply S.
Qed.
Lemma cm_select_sound {A} cm (a : nd A) r s op kw x : soundcm cm -> cm_select cm a r s op kw = Ok x -> soundcm (fst x).
Proof. intros S. unfold cm_select. intros H. step H. step H. eapply select_loop_sound; eassumption. Qed.

(** ** Sort, snap, flip, rename *)
Lemma cm_sort_sound argsort cm names rev o cm' ixs : soundcm cm -> cm_sort argsort cm names rev = Ok o -> o = Some (cm', ixs) -> soundcm cm'.
Proof.
  intros S. unfold cm_sort. intros H Eo. step H. destruct (negb _); [discriminate|].
  match type of H with (match ?x with _ => _ end) = _ => destruct x as [|n ns]; [congruence|] end.
  step H. step H. step H. step H. destruct (zlist_eqb _ _); [|discriminate]. subst o. injection H as <- <-.
  eapply build_sound; [|exact E1].
  assert (G : forall l acc r, fold_left (fun acc n => do st <- acc; sort_one argsort cm rev st n) l acc = Ok r ->
     (forall y, acc = Ok y -> allok (fst y)) -> allok (fst r)).
  { clear. induction l as [|n t IH]; intros acc r; cbn [fold_left]; [intros -> H; apply H; reflexivity|].
    intros E H. eapply IH; [exact E|]. intros y Y. step Y. specialize (H _ E0). unfold sort_one in Y.
    destruct (assoc n (cm_coords cm)) as [[c| |]|]; try discriminate; destruct (assoc n (cm_dmap cm)) as [[|dim ds]|]; try discriminate.
    step Y. step Y. step Y. injection Y as <-. cbn [fst].
    eapply allok_map_result; [exact E3|apply allok_set; [exact Logic.I|exact H]|]. intros [k m] e' _ N. cbn [fst snd] in *.
    destruct (String.eqb k n); [intros [= <-]; exact N|]. destruct (assoc k (cm_dmap cm)) as [l|]; [|discriminate].
    destruct (index_of dim l) as [ax|]; [|intros [= <-]; exact N]. intros X. step X. injection X as <-. cbn [snd]. eapply mc_getitem_nd; eassumption. }
  eapply G; [exact E0|]. intros y [= <-]. apply S.
Qed.
Lemma cm_snap_sound argsort cm names rev x : soundcm cm -> cm_snap argsort cm names rev = Ok x -> soundcm (fst x).
Proof.
  intros S. unfold cm_snap. intros H. step H.
  destruct (match a with Some x => x | None => (cm, []) end) as [cm1 ixs] eqn:EA.
  assert (S1 : soundcm cm1).
  { destruct a as [[c i]|]; injection EA as <- <-; [|exact S]. eapply cm_sort_sound; [exact S|exact E|reflexivity]. }
  step H. match type of H with (match ?x with _ => _ end) = _ => destruct x as [|u us] eqn:U end.
  { injection H as <-. exact S1. }
  step H. step H. step H. destruct (zlist_eqb _ _); [|discriminate]. injection H as <-. cbn [fst].
  eapply build_sound; [|exact E1]. apply allok_set_all; [|apply S1]. rewrite <- U. intros n m J.
  apply in_concat in J as (l & L & J). apply map_result_Forall2 in E0.
  assert (Q : exists n0, match assoc n0 (cm_coords cm1) with
       | None => Err KeyError
       | Some m => do o <- m_snap m; Ok (match o with Some c => [(n0, M1 c)] | None => [] end) end = Ok l).
  { clear - E0 L. induction E0 as [|x y l1 l2 Ex F IH]; [destruct L|]. destruct L as [->|L]; [exists x; exact Ex|apply IH, L]. }
  destruct Q as [n0 Q]. destruct (assoc n0 (cm_coords cm1)); [|discriminate]. apply bind_ok in Q as (o & _ & Q). injection Q as <-.
  destruct o; [|destruct J]. destruct J as [[= <- <-]|[]]. exact Logic.I.
Qed.
Lemma cm_flip_sound cm dims cm' : soundcm cm -> cm_flip cm dims = Ok cm' -> soundcm cm'.
Proof.
  intros S. unfold cm_flip. intros H. step H. eapply update_sound; [exact S| |exact H].
  assert (G : forall l acc r, fold_left (fun acc n => do o <- acc; flip_one cm o n) l acc = Ok r ->
     (forall y, acc = Ok y -> kok y) -> kok r).
  { induction l as [|n t IH]; intros acc r; cbn [fold_left]; [intros -> K; apply K; reflexivity|].
    intros F K. eapply IH; [exact F|]. intros y Y. step Y. specialize (K _ E0). unfold flip_one in Y.
    destruct (assoc n (cm_coords cm)) as [[c| |]|] eqn:An; try discriminate; destruct (assoc n (cm_dmap cm)) as [ds|]; try discriminate.
    step Y.
    assert (G2 : forall l acc r, fold_left (fun acc e => do o <- acc; flip_assoc cm n o e) l acc = Ok r ->
       (forall y, acc = Ok y -> kok y) -> kok r).
    { clear - S. induction l as [|e t IH]; intros acc r; cbn [fold_left]; [intros -> K; apply K; reflexivity|].
      intros F K. eapply IH; [exact F|]. intros y Y. step Y. specialize (K _ E). unfold flip_assoc in Y.
      destruct (String.eqb (fst e) n); [injection Y as <-; exact K|]. destruct (index_of n (snd e)); [|injection Y as <-; exact K].
      destruct (assoc (fst e) (cm_coords cm)) as [m|] eqn:Am; [|discriminate]. step Y. injection Y as <-.
      apply kok_set; [|exact K]. cbn. eapply mc_getitem_nd; [exact E0|]. eapply allok_assoc; [apply S|exact Am]. }
    eapply G2; [exact Y|]. intros z [= <-]. apply kok_set; [|exact K]. cbn. eapply mc_getitem_nd; [exact E1|exact Logic.I]. }
  eapply G; [exact E|]. intros y [= <-] e [].
Qed.
Lemma dict_pop_in {A} k (l : list (string * A)) v r : dict_pop k l = Some (v, r) ->
  In (k, v) l /\ forall e, In e r -> In e l.
Proof.
  revert v r. induction l as [|[k' w] t IH]; intros v r; cbn [dict_pop]; [discriminate|].
  destruct (String.eqb_spec k k') as [->|].
  - intros [= <- <-]. split; [left; reflexivity|intros e J; right; exact J].
  - destruct (dict_pop k t) as [[x r']|]; [|discriminate]. intros [= <- <-]. destruct (IH _ _ eq_refl) as [P Q].
    split; [right; exact P|]. intros e [<-|J]; [left; reflexivity|right; apply Q, J].
Qed.
Lemma cm_rename_sound cm kw cm' : soundcm cm -> cm_rename cm kw = Ok cm' -> soundcm cm'.
Proof.
  intros S. unfold cm_rename. intros H. step H. destruct a as [[dims cmap] dmap]. eapply build_sound; [|exact H].
  assert (G : forall l acc r, fold_left (fun acc e => do st <- acc; rename_one st e) l acc = Ok r ->
     (forall y, acc = Ok y -> allok (snd (fst y))) -> allok (snd (fst r))).
  { clear. induction l as [|[o n] t IH]; intros acc r; cbn [fold_left]; [intros -> K; apply K; reflexivity|].
    intros F K. eapply IH; [exact F|]. intros y Y. step Y. specialize (K _ E). destruct a as [[dims cmap] dmap]. cbn [fst snd] in K.
    unfold rename_one in Y. destruct (String.eqb o n); [injection Y as <-; exact K|].
    destruct (match index_of o dims with Some i => _ | None => _ end) as [dims' dmap'].
    destruct (dict_pop o cmap) as [[m cmap']|] eqn:P; [|discriminate]. destruct (dict_pop o dmap') as [[ds dmap'']|]; [|discriminate].
    injection Y as <-. cbn [fst snd]. apply dict_pop_in in P as [P1 P2]. apply allok_set; [eapply K, P1|]. intros x y J. eapply K, P2, J. }
  apply (G _ _ _ E). intros y [= <-]. apply S.
Qed.

(** ** Every call *)
Lemma do_call_sound {A} argsort (p p' : patch A) o : sound p -> call_ok o -> do_call argsort p o = Ok p' -> sound p'.
Proof.
  intros S K H. pose proof (sound_cm p S) as SC. destruct o; cbn [do_call call_ok] in *.
  - unfold pt_select in H. destruct (negb _); [discriminate|]. step H.
    destruct (_ && _); [injection H as <-; exact S|]. eapply new_patch_sound; [|exact H]. eapply cm_select_sound; eassumption.
  - unfold pt_order in H. step H. eapply new_patch_sound; [|exact H]. eapply cm_select_sound; eassumption.
  - unfold pt_sort in H. step H. destruct a as [[cm ixs]|]; [|injection H as <-; exact S].
    destruct (apply_axes _ _); [|discriminate]. eapply new_patch_sound; [|exact H]. eapply cm_sort_sound; [exact SC|exact E|reflexivity].
  - unfold pt_snap in H. step H. destruct (apply_axes _ _); [|discriminate]. eapply new_patch_sound; [|exact H]. eapply cm_snap_sound; eassumption.
  - unfold pt_transpose in H. destruct (negb _); [discriminate|]. step H. destruct a as [cm|]; [|injection H as <-; exact S].
    destruct (traverse _ _); [|discriminate]. destruct (nd_transpose _ _); [|discriminate]. eapply new_patch_sound; [|exact H].
    unfold cm_transpose in E. step E. destruct (strs_eqb _ _); [discriminate|]. step E. injection E as <-. eapply build_sound; [|exact E1]. apply SC.
  - unfold pt_flip in H. destruct dims as [|d ds]; [injection H as <-; exact S|]. step H. destruct (has_dup _); [discriminate|].
    destruct (apply_axes _ _); [|discriminate]. step H. eapply new_patch_sound; [|exact H]. destruct flip_coords; [eapply cm_flip_sound; eassumption|injection E0 as <-; exact SC].
  - unfold pt_rename in H. step H. eapply new_patch_sound; [|exact H]. eapply cm_rename_sound; eassumption.
  - unfold pt_update_coords in H. step H. eapply new_patch_sound; [|exact H]. eapply update_sound; eassumption.
  - unfold pt_drop_coords in H. destruct (meets_any _ _); [discriminate|]. step H. destruct (apply_indexers _ _ _); [|discriminate].
    eapply new_patch_sound; [|exact H]. eapply drop_sound; eassumption.
  - unfold pt_set_dims in H. step H. eapply new_patch_sound; [|exact H]. unfold set_dims in E. step E. step E. eapply build_sound; [|exact E]. apply SC.
  - unfold pt_squeeze in H. step H. destruct a as [cm|]; [|injection H as <-; exact S]. step H. destruct (negb _); [discriminate|].
    destruct (nd_reshape _ _); [|discriminate]. eapply new_patch_sound; [|exact H]. unfold cm_squeeze in E. step E.
    destruct (negb _); [discriminate|]. step E. destruct a0; [discriminate|]. step E. injection E as <-. eapply drop_sound; eassumption.
  - unfold pt_append_dims in H.
    match type of H with (match ?x with _ => _ end) = _ => destruct x as [|e es] eqn:KW; [injection H as <-; exact S|] end.
    step H. destruct (nd_append _ _); [|discriminate]. step H. eapply new_patch_sound; [|exact H]. eapply update_sound; [exact SC| |exact E0].
    intros x J. apply in_map_iff in J as (y & <- & J). cbn. apply K. rewrite <- KW in J. apply filter_In in J. apply J.
  - unfold pt_decimate in H. step H. destruct (apply_indexers _ _ _); [|discriminate]. eapply new_patch_sound; [|exact H].
    unfold cm_decimate in E. destruct (negb _); [discriminate|]. destruct (assoc dim _) as [[c| |]|]; try discriminate. step E. step E. injection E as <-.
    eapply update_sound; [exact SC| |exact E1]. intros x [<-|[]]. exact Logic.I.
  - unfold pt_roll in H. step H. destruct (nth_error _ _); [|discriminate]. destruct (assoc dim _) as [[[r| | |]| |]|]; try discriminate.
    destruct (nd_take _ _ _); [|discriminate]. destruct update.
    + destruct (gather _ _); [|discriminate]. step H. step H. eapply new_patch_sound; [|exact H]. eapply update_sound; [exact SC| |exact E1].
      intros x [<-|[]]. exact Logic.I.
    + eapply new_patch_sound; eassumption.
Qed.

Lemma run_sound {A} argsort ops : forall (p p' : patch A), sound p -> (forall o, In o ops -> call_ok o) ->
  fold_left (fun acc o => do q <- acc; do_call argsort q o) ops (Ok p) = Ok p' -> sound p'.
Proof.
  assert (G : forall ops acc p', fold_left (fun acc o => do q <- acc; do_call argsort q o) ops acc = Ok p' ->
    (forall o, In o ops -> call_ok o) -> (forall q : patch A, acc = Ok q -> sound q) -> sound p').
  { clear ops. induction ops as [|o t IH]; intros acc p'; cbn [fold_left]; [intros -> _ H; apply H; reflexivity|].
    intros F K H. eapply IH; [exact F|intros x X; apply K; right; exact X|]. intros q Q. step Q.
    eapply do_call_sound; [apply H, E|apply K; left; reflexivity|exact Q]. }
  intros p p' S K F. eapply G; [exact F|exact K|]. intros q [= <-]. exact S.
Qed.

Lemma construct_sound {A} kw dims shape cm (a : nd A) p : kok kw -> get_cm kw dims shape = Ok cm -> new_patch cm a = Ok p -> sound p.
Proof. intros K G N. eapply new_patch_sound; [|exact N]. eapply get_cm_sound; eassumption. Qed.

(** The validator accepts exactly the consistent managers. *)
Lemma validator_exact dims cmap dmap : NoDup (map fst dmap) -> allok cmap ->
  (build_cm dims cmap dmap = Ok (mkCm dims cmap dmap) <-> consistent (mkCm dims cmap dmap)).
Proof.
  intros ND K. split.
  - intros E. apply (build_sound dims cmap dmap _ K E).
  - intros C. apply build_cm_accepted. apply (consistent_accepted (mkCm dims cmap dmap) C ND).
Qed.
