(** The text of a history entry names every argument once. *)
From Verif Require Import Base BaseFacts CoordModel FrameModel FrameProofs5 ChunkModel CmModel CmProofs CmProofs5 AttrsModel RegistryProofs3 HistoryModel HistorySpec HistoryProofs4.
From Coq Require Import Strings.String Permutation Sorted.
Local Open Scope Z_scope.
Local Open Scope list_scope.

Lemma map_result_all {A C} (f : A -> result C) l : forall r, map_result f l = Ok r -> Forall2 (fun x y => f x = Ok y) l r.
Proof.
  induction l as [|x l IH]; intros r; cbn [map_result]; [intros [= <-]; constructor|].
  destruct (f x) eqn:E; cbn [bind]; [|discriminate]. destruct (map_result f l); cbn [bind]; [|discriminate]. intros [= <-]. constructor; auto.
Qed.
Lemma bind_keys kw l r : map_result (bind_one kw) l = Ok r -> map fst r = map fst l.
Proof.
  intros H. apply map_result_all in H. induction H as [|x y l r E H IH]; [reflexivity|]. cbn. rewrite IH. f_equal.
  unfold bind_one in E. destruct (assoc (fst x) kw); [now injection E as <-|]. destruct (snd x); [|discriminate]. now injection E as <-.
Qed.
Lemma bind_in kw l r p v : NoDup (map fst kw) -> map_result (bind_one kw) l = Ok r ->
  (In (p, v) r <-> exists d, In (p, d) l /\ (In (p, v) kw \/ (d = Some v /\ ~ In p (map fst kw)))).
Proof.
  intros ND H. apply map_result_all in H. induction H as [|(q & dq) y l r E H IH]; [split; [contradiction|intros (d & [] & _)]|].
  cbn [In]. rewrite IH. clear IH. unfold bind_one in E. cbn [fst snd] in E.
  assert (Y : (y = (p, v)) <-> (q = p /\ (In (p, v) kw \/ (dq = Some v /\ ~ In p (map fst kw))))).
  { destruct (assoc q kw) as [w|] eqn:A.
    - injection E as <-. split.
      + intros [= -> ->]. split; auto. left. now apply assoc_in.
      + intros (-> & [I|(_ & I)]).
        * apply in_assoc in I; auto. congruence.
        * exfalso. apply I. apply assoc_In. eauto.
    - assert (Nq : ~ In q (map fst kw)) by now apply assoc_None. destruct dq as [d|]; [|discriminate]. injection E as <-. split.
      + intros [= -> ->]. auto.
      + intros (-> & [I|([= ->] & _)]); [|reflexivity]. elim Nq. apply in_map_iff. now exists (p, v). }
  split.
  - intros [->|(d & I & C)].
    + destruct (proj1 Y eq_refl) as (-> & C). exists dq. split; [now left|exact C].
    + exists d. split; [now right|exact C].
  - intros (d & [[= -> ->]|I] & C); [left; apply Y; auto|]. right. now exists d.
Qed.
Lemma in_combine_nth {A C} (l : list A) (p : list C) x v : In (x, v) (combine l p) <-> exists i, nth_error l i = Some x /\ nth_error p i = Some v.
Proof.
  revert p. induction l as [|y l IH]; intros [|z p]; cbn [combine In].
  - split; [tauto|intros (i & H & _); destruct i; discriminate].
  - split; [tauto|intros (i & H & _); destruct i; discriminate].
  - split; [tauto|intros (i & _ & H); destruct i; discriminate].
  - rewrite IH. split.
    + intros [[= -> ->]|(i & H)]; [now exists O|now exists (S i)].
    + intros ([|i] & H1 & H2); cbn in H1, H2; [injection H1 as ->; injection H2 as ->; now left|right; eauto].
Qed.
Lemma combine_keys {A C} (l : list A) (p : list C) : map fst (combine l p) = firstn (List.length p) l.
Proof. revert p. induction l as [|y l IH]; intros [|z p]; cbn; auto. f_equal. apply IH. Qed.
Lemma in_skipn_nth {A} n (l : list A) x : In x (skipn n l) <-> exists i, (n <= i)%nat /\ nth_error l i = Some x.
Proof.
  revert l. induction n as [|n IH]; intros l.
  - split; [intros H; apply In_nth_error in H; destruct H as (i & H); exists i; split; [lia|exact H]|].
    intros (i & _ & H). eapply nth_error_In; eauto.
  - destruct l as [|y l]; [split; [contradiction|intros (i & _ & H); destruct i; discriminate]|]. cbn [skipn]. rewrite IH. split.
    + intros (i & L & H). exists (S i). split; [lia|exact H].
    + intros ([|i] & L & H); [lia|]. exists i. split; [lia|exact H].
Qed.

Lemma args_spec g pos kw a x : NoDup (map fst kw) -> getcallargs g pos kw = Ok (a, x) ->
  (forall p v, In (p, v) a <-> receives g pos kw p v) /\ (forall p v, In (p, v) x <-> extra g kw p v) /\
  (names_apart g -> NoDup (map fst a)) /\ NoDup (map fst x).
Proof.
  intros ND. unfold getcallargs. cbv zeta. destruct (existsb _ (firstn _ _)); [discriminate|]. destruct (Nat.ltb _ _ && _); [discriminate|].
  destruct (existsb _ (map fst kw) && _); [discriminate|].
  destruct (map_result _ _) as [rest|] eqn:M; cbn [bind]; [|discriminate]. intros E.
  assert (Ea : a = combine (map fst (g_pos g)) pos ++ match g_star g with
      | Some s => [(s, PTuple (skipn (List.length (map fst (g_pos g))) pos))] | None => [] end ++ rest) by congruence.
  assert (Ex : x = filter (fun e => negb (mem (fst e) (map fst (g_pos g) ++ map fst (g_only g)))) kw) by congruence.
  clear E. split; [|split; [|split]].
  - intros p v. rewrite Ea, !in_app_iff, in_combine_nth, (bind_in kw _ rest p v ND M). split.
    + intros [(i & Hn & Hv)|[Hs|(d & Hd & C)]].
      * rewrite nth_error_map in Hn. destruct (nth_error (g_pos g) i) as [[q d]|] eqn:G; [|discriminate]. injection Hn as <-.
        eapply by_place; eauto.
      * destruct (g_star g) as [s|] eqn:S; [|contradiction]. destruct Hs as [[= <- <-]|[]]. rewrite map_length. now apply by_star.
      * apply in_app_iff in Hd. destruct Hd as [Hd|Hd].
        -- apply in_skipn_nth in Hd. destruct Hd as (i & L & Hi). assert (Np : nth_error pos i = None) by (apply nth_error_None; exact L).
           destruct C as [C|(-> & C)]; [eapply by_name; eauto|eapply by_default; eauto].
        -- destruct C as [C|(-> & C)]; [eapply only_name; eauto|now apply only_default].
    + intros [i p' d v' Hi Hv|i p' d v' Hi Hn Hk|i p' v' Hi Hn Hk|p' d v' Hd Hk|p' v' Hd Hk|p' Hs].
      * left. exists i. rewrite nth_error_map, Hi. auto.
      * right. right. exists d. split; auto. apply in_app_iff. left. apply in_skipn_nth. exists i. split; auto. now apply nth_error_None.
      * right. right. exists (Some v'). split; auto. apply in_app_iff. left. apply in_skipn_nth. exists i. split; auto. now apply nth_error_None.
      * right. right. exists d. split; auto. apply in_app_iff. now right.
      * right. right. exists (Some v'). split; auto. apply in_app_iff. now right.
      * right. left. rewrite Hs, map_length. now left.
  - intros p v. rewrite Ex, filter_In. cbn [fst]. rewrite Bool.negb_true_iff. unfold extra. split.
    + intros (I & F). split; auto. apply Bool.not_true_iff_false in F. split; intros H; apply F, mem_In', in_app_iff; auto.
    + intros (I & A & B). split; auto. apply Bool.not_true_iff_false. intros H. apply mem_In', in_app_iff in H. tauto.
  - intros Na. rewrite Ea, !map_app, combine_keys, (bind_keys _ _ _ M), map_app, <- skipn_map.
    unfold names_apart in Na. set (ps := map fst (g_pos g)) in *. set (os := map fst (g_only g)) in *.
    assert (Es : map fst match g_star g with Some s => [(s, PTuple (skipn (List.length ps) pos))] | None => [] end =
                 match g_star g with Some s => [s] | None => [] end) by now destruct (g_star g).
    rewrite Es. eapply Permutation_NoDup; [|exact Na].
    rewrite <- (firstn_skipn (List.length pos) ps) at 1. rewrite <- app_assoc. apply Permutation_app_head.
    rewrite !app_assoc. apply Permutation_app_tail. apply Permutation_app_comm.
  - rewrite Ex. clear -ND. induction kw as [|(k & v) kw IH]; [constructor|]. cbn in ND. inversion ND; subst. cbn [filter].
    destruct (negb _); [|auto]. cbn. constructor; auto. intros I. apply H1. apply in_map_iff in I. destruct I as (e & <- & F). apply filter_In in F. now apply in_map.
Qed.

Definition some_value (e : string * pyval) : bool := match snd e with PNone => false | _ => true end.
Lemma shown_show l : flat_map shown l = map mention (filter some_value l).
Proof.
  induction l as [|(k & v) l IH]; [reflexivity|]. cbn [flat_map filter]. rewrite IH. unfold shown, some_value. cbn [fst snd].
  destruct v; reflexivity.
Qed.
Lemma NoDup_keys {A} (l : list (string * A)) : NoDup (map fst l) -> NoDup l.
Proof. apply NoDup_map_inv. Qed.

Theorem entry_text name g pos kw t : names_apart g -> NoDup (map fst kw) -> call_string name g pos kw = Ok t ->
  exists l a x, t = (name ++ "(" ++ str_join "," l ++ ")")%string /\
    Sorted (fun s s' => String.leb s s' = true) l /\ Permutation l (map mention (a ++ x)) /\
    NoDup a /\ (forall p v, In (p, v) a <-> argument g pos kw p v) /\
    NoDup x /\ (forall p v, In (p, v) x <-> extra_argument g kw p v).
Proof.
  intros Na ND. unfold call_string. destruct (getcallargs g pos kw) as [[a x]|e] eqn:G; cbn [bind]; [|discriminate].
  destruct (_ || _); [discriminate|]. intros E. apply (args_spec g pos kw a x ND) in G. destruct G as (Ga & Gx & Da & Dx). specialize (Da Na).
  set (a' := filter (fun e => negb (mem (fst e) ["patch"; "self"]%string)) a) in *.
  exists (sort_strs (flat_map shown a' ++ flat_map shown x)), (filter some_value a'), (filter some_value x).
  split; [congruence|]. split; [apply sort_sorted|]. split; [rewrite sort_strs_perm, !shown_show, map_app; reflexivity|].
  split; [apply NoDup_filter, NoDup_filter, NoDup_keys, Da|]. split; [|split; [apply NoDup_filter, NoDup_keys, Dx|]].
  - intros p v. unfold a', argument. rewrite !filter_In, Ga. cbn [fst]. unfold some_value. cbn [snd]. rewrite Bool.negb_true_iff.
    assert (M : mem p ["patch"; "self"]%string = false <-> p <> "patch"%string /\ p <> "self"%string).
    { rewrite <- Bool.not_true_iff_false, mem_In'. cbn. intuition congruence. }
    rewrite M. destruct v; intuition congruence.
  - intros p v. unfold extra_argument. rewrite filter_In, Gx. unfold some_value. cbn [snd]. destruct v; intuition congruence.
Qed.
