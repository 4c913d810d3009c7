(** Proofs for namespaces (C97). *)
From Verif Require Import Base BaseFacts NsModel NsSpec.
From Coq Require Import Strings.String Lia.
Local Open Scope Z_scope.
Local Open Scope list_scope.

Lemma key_is_eq k l : key_is k l = true <-> k = l.
Proof.
  destruct k as [g n], l as [g' n']. unfold key_is. cbn [fst snd]. split.
  - intros H. apply andb_true_iff in H as [H1 H2]. apply String.eqb_eq in H2. subst. destruct g, g'; cbn in H1; try discriminate; [apply String.eqb_eq in H1; subst|]; reflexivity.
  - intros [= -> ->]. rewrite String.eqb_refl, andb_true_r. destruct g'; cbn; [apply String.eqb_refl|reflexivity].
Qed.
Lemma ns_last st c g n i : is_namespace (mkNs (n_classes st ++ [c]) (n_reg st) (n_kept st) (n_loaded st) (n_warned st)) g n i <->
  is_namespace st g n i \/ (i = zlen (n_classes st) /\ k_group c = g /\ k_name c = Some n).
Proof.
  unfold is_namespace. cbn [n_classes]. split.
  - intros (c' & E & A & B). rewrite znth_app in E. destruct (Z.ltb_spec i (zlen (n_classes st))) as [L|L].
    + left. eauto.
    + right. assert (H : i - zlen (n_classes st) = 0). { apply znth_range_lt in E || (assert (exists x, znth [c] (i - zlen (n_classes st)) = Some x) as K by eauto; apply znth_range in K; change (zlen [c]) with 1 in K; lia). }
      rewrite H in E. cbn in E. injection E as <-. split; [lia|auto].
  - intros [(c' & E & A & B)|(-> & A & B)].
    + exists c'. rewrite znth_app. assert (K : exists x, znth (n_classes st) i = Some x) by eauto. apply znth_range in K. rewrite (proj2 (Z.ltb_lt i _)) by lia. auto.
    + exists c. rewrite znth_app, (proj2 (Z.ltb_ge _ _)), Z.sub_diag by lia. auto.
Qed.
Lemma ns_range st g n i : is_namespace st g n i -> 0 <= i < zlen (n_classes st).
Proof. intros (c & E & _). apply znth_range. eauto. Qed.

Record good (st : nstate) : Prop :=
  { g_reg : forall g n i, find_key (g, n) (n_reg st) = Some i -> latest_namespace st g n i;
    g_none : forall g n, find_key (g, n) (n_reg st) = None -> forall i, ~ is_namespace st g n i;
    g_warn : forall i, In i (n_warned st) <-> exists g n j, is_namespace st g n i /\ is_namespace st g n j /\ j < i;
    g_parent : forall i j c, znth (n_classes st) i = Some c -> k_parent c = Some j -> 0 <= j < i }.

(** The new class of a statement. *)
Lemma define_shape st s : exists c, n_classes (define st s) = n_classes st ++ [c] /\ n_kept (define st s) = n_kept st /\ n_loaded (define st s) = n_loaded st /\
  (forall j, k_parent c = Some j -> 0 <= j < zlen (n_classes st)) /\ k_attrs c = map (fun e => (fst e, stored (fst e) (snd e))) (s_body s) /\
  (forall j, s_parent s = Some j -> 0 <= j < zlen (n_classes st) -> k_parent c = Some j) /\
  match k_name c with
  | None => n_reg (define st s) = n_reg st /\ n_warned (define st s) = n_warned st
  | Some n => n_reg (define st s) = ((k_group c, n), zlen (n_classes st)) :: n_reg st /\
      n_warned (define st s) = match find_key (k_group c, n) (n_reg st) with Some _ => zlen (n_classes st) :: n_warned st | None => n_warned st end
  end.
Proof.
  unfold define. set (pr := match s_parent s with Some i => znth (n_classes st) i | None => None end).
  set (c := mkCls _ _ _ _). exists c.
  assert (P : forall j, k_parent c = Some j -> 0 <= j < zlen (n_classes st)).
  { intros j. subst c pr. cbn. destruct (s_parent s) as [i|]; [|discriminate]. destruct (znth (n_classes st) i) eqn:E; [|discriminate]. intros [= <-]. apply znth_range. eauto. }
  assert (P2 : forall j, s_parent s = Some j -> 0 <= j < zlen (n_classes st) -> k_parent c = Some j).
  { intros j Ej Rj. subst c pr. cbn. rewrite Ej. apply znth_range in Rj as [x ->]. reflexivity. }
  assert (A : k_attrs c = map (fun e => (fst e, stored (fst e) (snd e))) (s_body s)) by reflexivity.
  clearbody c. destruct (k_name c); cbn [n_classes n_kept n_loaded n_reg n_warned]; auto 12.
Qed.
Lemma ns_eq st st' g n i : n_classes st = n_classes st' -> is_namespace st g n i <-> is_namespace st' g n i.
Proof. intros E. unfold is_namespace. rewrite E. reflexivity. Qed.

Lemma define_good st s : good st -> good (define st s).
Proof.
  intros [GR GN GW GP]. destruct (define_shape st s) as (c & Ec & Ek & El & P & _ & _ & R).
  assert (NS : forall g n i, is_namespace (define st s) g n i <-> is_namespace st g n i \/ (i = zlen (n_classes st) /\ k_group c = g /\ k_name c = Some n)).
  { intros g n i. rewrite <- ns_last. apply ns_eq. exact Ec. }
  assert (PAR : forall i j c', znth (n_classes (define st s)) i = Some c' -> k_parent c' = Some j -> 0 <= j < i).
  { intros i j c' E K. rewrite Ec, znth_app in E. destruct (Z.ltb_spec i (zlen (n_classes st))) as [L|L]; [eapply GP; eassumption|].
    assert (K1 : exists x, znth [c] (i - zlen (n_classes st)) = Some x) by eauto. apply znth_range in K1. change (zlen [c]) with 1 in K1. replace (i - zlen (n_classes st)) with 0 in E by lia. cbn in E. injection E as <-. specialize (P j K). lia. }
  destruct (k_name c) as [m|] eqn:Em.
  - destruct R as [R1 R2]. split; [| | |exact PAR].
    + intros g n i. rewrite R1. cbn [find_key]. destruct (key_is (g, n) (k_group c, m)) eqn:K.
      * apply key_is_eq in K. injection K as -> ->. intros [= <-]. split; [apply NS; right; auto|]. intros j J. apply NS in J as [J|(-> & _)]; [apply ns_range in J; lia|lia].
      * intros H. destruct (GR _ _ _ H) as [N1 N2]. split; [apply NS; left; exact N1|]. intros j J. apply NS in J as [J|(-> & Eg & En)]; [apply N2, J|]. injection En as ->. subst g. rewrite (proj2 (key_is_eq _ _) eq_refl) in K. discriminate.
    + intros g n. rewrite R1. cbn [find_key]. destruct (key_is (g, n) (k_group c, m)) eqn:K; [discriminate|]. intros H i J. apply NS in J as [J|(-> & Eg & En)]; [eapply GN; eassumption|]. injection En as ->. subst g. rewrite (proj2 (key_is_eq _ _) eq_refl) in K. discriminate.
    + intros i. rewrite R2. destruct (find_key (k_group c, m) (n_reg st)) as [j0|] eqn:F.
      * cbn [In]. rewrite GW. split.
        -- intros [<-|(g & n & j & A & B & L)]; [|exists g, n, j; rewrite !NS; auto]. destruct (GR _ _ _ F) as [N1 _]. exists (k_group c), m, j0. rewrite !NS. split; [right; auto|]. split; [left; exact N1|]. apply ns_range in N1. lia.
        -- intros (g & n & j & A & B & L). apply NS in A as [A|(-> & _)]; [|left; reflexivity]. right. exists g, n, j. split; [exact A|]. split; [|exact L]. apply NS in B as [B|(-> & _)]; [exact B|]. apply ns_range in A. lia.
      * rewrite GW. split.
        -- intros (g & n & j & A & B & L). exists g, n, j. rewrite !NS. auto.
        -- intros (g & n & j & A & B & L). apply NS in A as [A|(-> & Eg & En)].
           ++ exists g, n, j. split; [exact A|]. split; [|exact L]. apply NS in B as [B|(-> & _)]; [exact B|]. apply ns_range in A. lia.
           ++ injection En as ->. subst g. exfalso. apply NS in B as [B|(-> & _)]; [|lia]. eapply GN; eassumption.
  - destruct R as [R1 R2].
    assert (NS' : forall g n i, is_namespace (define st s) g n i <-> is_namespace st g n i) by (intros; rewrite NS; split; [intros [H|(_ & _ & H)]; [exact H|discriminate]|auto]).
    split; [| | |exact PAR].
    + intros g n i. rewrite R1. intros H. destruct (GR _ _ _ H) as [N1 N2]. split; [apply NS', N1|]. intros j J. apply N2, NS', J.
    + intros g n. rewrite R1. intros H i J. apply NS' in J. eapply GN; eassumption.
    + intros i. rewrite R2, GW. split; intros (g & n & j & A & B & L); exists g, n, j; [rewrite !NS'|rewrite !NS' in *]; auto; apply NS' in A; apply NS' in B; auto.
Qed.
Lemma good_kept cs r k k' l l' w : good (mkNs cs r k l w) -> good (mkNs cs r k' l' w).
Proof. intros [A B C D]. split; assumption. Qed.
Lemma good_parts st k l : good st -> good (mkNs (n_classes st) (n_reg st) k l (n_warned st)).
Proof. destruct st. apply good_kept. Qed.

Lemma defines_spec l : forall st, good st -> good (fold_left define l st) /\ n_kept (fold_left define l st) = n_kept st /\ n_loaded (fold_left define l st) = n_loaded st /\
  exists cs, n_classes (fold_left define l st) = n_classes st ++ cs /\ zlen cs = zlen l.
Proof.
  induction l as [|s l IH]; intros st G; cbn [fold_left].
  - split; [exact G|]. split; [reflexivity|]. split; [reflexivity|]. exists []. rewrite app_nil_r. auto.
  - destruct (IH (define st s) (define_good st s G)) as (A & B & C & cs & D & Lc). destruct (define_shape st s) as (c & Ec & Ek & El & _). split; [exact A|]. split; [congruence|]. split; [congruence|].
    exists (c :: cs). rewrite D, Ec, <- app_assoc. split; [reflexivity|]. rewrite !zlen_cons. lia.
Qed.

Section Namespaces.
  Variable points : string -> list (string * list stmt).
  Variable owner : Z -> string.
  Notation load := (load_point points).
  Notation get := (access points owner).

  Lemma loaded_in l g n : existsb (fun x => String.eqb g (fst x) && String.eqb n (snd x)) l = true <-> In (g, n) l.
  Proof.
    rewrite existsb_exists. split.
    - intros ([g' n'] & I & H). cbn in H. apply andb_true_iff in H as [H1 H2]. apply String.eqb_eq in H1, H2. congruence.
    - intros I. exists (g, n). cbn. rewrite !String.eqb_refl. auto.
  Qed.
  Lemma load_spec st g n : good st -> good (load st g n) /\ n_kept (load st g n) = n_kept st /\ (In (g, n) (n_loaded st) -> load st g n = st) /\
    (~ In (g, n) (n_loaded st) -> n_loaded (load st g n) = (g, n) :: n_loaded st) /\ exists cs, n_classes (load st g n) = n_classes st ++ cs.
  Proof.
    intros G. unfold load_point. destruct (existsb _ (n_loaded st)) eqn:E.
    - apply loaded_in in E. split; [exact G|]. split; [reflexivity|]. split; [reflexivity|]. split; [contradiction|]. exists []. rewrite app_nil_r. reflexivity.
    - assert (N : ~ In (g, n) (n_loaded st)) by (rewrite <- loaded_in; congruence). set (st1 := mkNs _ _ _ _ _). assert (G1 : good st1) by (apply good_parts, G).
      destruct (last_named n (points g)) as [l|].
      + destruct (defines_spec l st1 G1) as (A & B & C & cs & D & _). split; [exact A|]. split; [rewrite B; reflexivity|]. split; [contradiction|]. split; [intros _; rewrite C; reflexivity|]. exists cs. rewrite D. reflexivity.
      + split; [exact G1|]. split; [reflexivity|]. split; [contradiction|]. split; [reflexivity|]. exists []. rewrite app_nil_r. reflexivity.
  Qed.
  Lemma access_spec st o n r st' : good st -> get st o n = (r, st') -> good st' /\
    match r with
    | Ok i => (find_kept o n (n_kept st) = Some i /\ st' = st) \/
              (find_kept o n (n_kept st) = None /\ latest_namespace st' (Some (owner o)) n i /\ n_kept st' = ((o, n), i) :: n_kept st)
    | Err e => e = AttributeError /\ find_kept o n (n_kept st) = None /\ (forall i, ~ is_namespace st' (Some (owner o)) n i) /\ n_kept st' = n_kept st
    end.
  Proof.
    intros G. unfold access. destruct (find_kept o n (n_kept st)) as [i|] eqn:F; [intros [= <- <-]; auto|].
    destruct (load_spec st (owner o) n G) as (GL & K & _). set (st1 := load st (owner o) n) in *.
    destruct (find_key (Some (owner o), n) (n_reg st1)) as [i|] eqn:R; intros [= <- <-].
    - split; [apply good_parts, GL|]. right. split; [reflexivity|]. split; [|cbn; rewrite K; reflexivity]. apply (g_reg _ GL) in R. exact R.
    - split; [exact GL|]. split; [reflexivity|]. split; [reflexivity|]. split; [|exact K]. apply (g_none _ GL), R.
  Qed.
  Lemma start_good : good ns_start.
  Proof.
    assert (N : forall g n i, ~ is_namespace ns_start g n i) by (intros g n i (c & E & _); cbn in E; rewrite znth_nil in E; discriminate).
    split; cbn; [discriminate|intros; apply N| |intros i j c E; rewrite znth_nil in E; discriminate]. intros i. split; [intros []|]. intros (g & n & j & A & _). apply (N _ _ _ A).
  Qed.
  Lemma step_good st op : good st -> good (ns_step points owner st op).
  Proof. intros G. destruct op as [s|o n]; cbn; [apply define_good, G|]. destruct (get st o n) as [r st'] eqn:E. apply (access_spec _ _ _ _ _ G E). Qed.
  Lemma run_good ops : forall st, good st -> good (ns_run points owner st ops).
  Proof. induction ops as [|op ops IH]; intros st G; [exact G|]. apply IH, step_good, G. Qed.
  Lemma reached_good st : reached points owner st -> good st.
  Proof. intros [ops ->]. apply run_good, start_good. Qed.

  Theorem registry_ok st g n : reached points owner st -> forall i, find_key (g, n) (n_reg st) = Some i <-> latest_namespace st g n i.
  Proof.
    intros R i. pose proof (reached_good st R) as G. split; [apply (g_reg _ G)|]. intros [A B]. destruct (find_key (g, n) (n_reg st)) as [j|] eqn:F.
    - destruct (g_reg _ G _ _ _ F) as [A' B']. f_equal. specialize (B _ A'). specialize (B' _ A). lia.
    - exfalso. eapply (g_none _ G); eassumption.
  Qed.
  Theorem access_ok st o n : reached points owner st -> exists r st', get st o n = (r, st') /\
    match r with
    | Ok i => (find_kept o n (n_kept st) = Some i /\ st' = st) \/ (find_kept o n (n_kept st) = None /\ latest_namespace st' (Some (owner o)) n i)
    | Err e => e = AttributeError /\ find_kept o n (n_kept st) = None /\ forall i, ~ is_namespace st' (Some (owner o)) n i
    end.
  Proof.
    intros R. destruct (get st o n) as [r st'] eqn:E. exists r, st'. split; [reflexivity|]. destruct (access_spec _ _ _ _ _ (reached_good _ R) E) as [_ H].
    destruct r; [destruct H as [H|(A & B & _)]; auto|]. destruct H as (A & B & C & _). auto.
  Qed.
  Theorem warned_ok st : reached points owner st -> forall i, In i (n_warned st) <-> exists g n j, is_namespace st g n i /\ is_namespace st g n j /\ j < i.
  Proof. intros R. apply (g_warn _ (reached_good _ R)). Qed.

  Lemma kept_step st op o n i : good st -> find_kept o n (n_kept st) = Some i -> find_kept o n (n_kept (ns_step points owner st op)) = Some i.
  Proof.
    intros G F. destruct op as [s|o' n']; cbn [ns_step].
    - destruct (define_shape st s) as (c & _ & -> & _). exact F.
    - destruct (get st o' n') as [r st'] eqn:E. cbn [snd]. destruct (access_spec _ _ _ _ _ G E) as [_ H]. destruct r as [j|].
      + destruct H as [[_ ->]|(N & _ & ->)]; [exact F|]. cbn [find_kept]. destruct ((o =? o') && String.eqb n n')%bool eqn:Q; [|exact F]. apply andb_true_iff in Q as [Q1 Q2]. apply Z.eqb_eq in Q1. apply String.eqb_eq in Q2. congruence.
      + destruct H as (_ & _ & _ & ->). exact F.
  Qed.
  Theorem sticky st o n i st1 st2 : reached points owner st -> get st o n = (Ok i, st1) -> later points owner st1 st2 -> get st2 o n = (Ok i, st2).
  Proof.
    intros R E [ops ->]. destruct (access_spec _ _ _ _ _ (reached_good _ R) E) as [G H].
    assert (K : find_kept o n (n_kept st1) = Some i). { destruct H as [[K ->]|(_ & _ & ->)]; [exact K|]. cbn [find_kept]. rewrite Z.eqb_refl, String.eqb_refl. reflexivity. }
    assert (L : find_kept o n (n_kept (ns_run points owner st1 ops)) = Some i).
    { clear E H. revert st1 G K. induction ops as [|op ops IH]; intros st1 G K; [exact K|]. apply (IH (ns_step points owner st1 op)); [apply step_good, G|]. apply kept_step; assumption. }
    unfold access. rewrite L. reflexivity.
  Qed.
  (** Loading once. *)
  Lemma loaded_access st o n : good st -> (find_kept o n (n_kept st) <> None -> snd (get st o n) = st) /\
    (find_kept o n (n_kept st) = None -> n_loaded (snd (get st o n)) = n_loaded (load st (owner o) n) /\ n_classes (snd (get st o n)) = n_classes (load st (owner o) n)).
  Proof.
    intros G. unfold access. destruct (find_kept o n (n_kept st)); [split; [reflexivity|discriminate]|]. split; [contradiction|]. intros _. destruct (find_key _ _); split; reflexivity.
  Qed.
  Lemma loaded_step st op : good st -> NoDup (n_loaded st) -> NoDup (n_loaded (ns_step points owner st op)).
  Proof.
    intros G N. destruct op as [s|o n]; cbn [ns_step]; [destruct (define_shape st s) as (c & _ & _ & -> & _); exact N|].
    destruct (loaded_access st o n G) as [A B]. destruct (find_kept o n (n_kept st)) eqn:F; [rewrite A by discriminate; exact N|]. destruct (B eq_refl) as [-> _].
    destruct (load_spec st (owner o) n G) as (_ & _ & L1 & L2 & _). destruct (existsb (fun x => String.eqb (owner o) (fst x) && String.eqb n (snd x)) (n_loaded st)) eqn:E.
    - apply loaded_in in E. rewrite L1 by exact E. exact N.
    - assert (M : ~ In (owner o, n) (n_loaded st)) by (rewrite <- loaded_in; congruence). rewrite L2 by exact M. constructor; assumption.
  Qed.
  Theorem loaded_once st : reached points owner st -> NoDup (n_loaded st).
  Proof.
    intros [ops ->]. assert (H : forall st, good st -> NoDup (n_loaded st) -> NoDup (n_loaded (ns_run points owner st ops))).
    { induction ops as [|op ops IH]; intros st G N; [exact N|]. apply IH; [apply step_good, G|apply loaded_step; assumption]. }
    apply H; [apply start_good|constructor].
  Qed.
  Theorem loaded_classes st o n : reached points owner st -> In (owner o, n) (n_loaded st) -> n_classes (snd (get st o n)) = n_classes st.
  Proof.
    intros R I. pose proof (reached_good _ R) as G. destruct (loaded_access st o n G) as [A B]. destruct (find_kept o n (n_kept st)) eqn:F; [rewrite A by discriminate; reflexivity|].
    destruct (B eq_refl) as [_ ->]. destruct (load_spec st (owner o) n G) as (_ & _ & L1 & _). rewrite L1 by exact I. reflexivity.
  Qed.

  Lemma last_named_none n (l : list (string * list stmt)) : last_named n l = None <-> ~ In n (map fst l).
  Proof.
    induction l as [|[m b] t IH]; cbn; [tauto|]. destruct (last_named n t) eqn:E; [split; [discriminate|]; intros H; exfalso; apply H; right; destruct (in_dec string_dec n (map fst t)) as [I|I]; [exact I|apply IH in I; discriminate]|].
    destruct (String.eqb_spec n m) as [->|Q]; [split; [discriminate|]; intros H; exfalso; apply H; left; reflexivity|]. split; [|reflexivity]. intros _ [->|I]; [contradiction|]. apply (proj1 IH eq_refl I).
  Qed.
  Lemma last_named_some n l (b : list stmt) : last_point l n b -> last_named n l = Some b.
  Proof.
    intros (l1 & l2 & -> & H). induction l1 as [|[m x] t IH]; cbn; [|rewrite IH; reflexivity]. rewrite (proj2 (last_named_none n l2) H), String.eqb_refl. reflexivity.
  Qed.
  Theorem loads st o n : reached points owner st -> find_kept o n (n_kept st) = None -> ~ In (owner o, n) (n_loaded st) ->
    In (owner o, n) (n_loaded (snd (get st o n))) /\
    (forall b, last_point (points (owner o)) n b -> n_classes (snd (get st o n)) = n_classes (fold_left define b st)) /\
    (~ In n (map fst (points (owner o))) -> n_classes (snd (get st o n)) = n_classes st).
  Proof.
    intros R F N. pose proof (reached_good _ R) as G. destruct (loaded_access st o n G) as [_ B]. destruct (B F) as [-> ->]. destruct (load_spec st (owner o) n G) as (_ & _ & _ & L2 & _).
    split; [rewrite L2 by exact N; left; reflexivity|]. unfold load_point. destruct (existsb _ (n_loaded st)) eqn:E; [apply loaded_in in E; contradiction|]. split.
    - intros b P. rewrite (last_named_some _ _ _ P). generalize ((owner o, n) :: n_loaded st). clear. intros l. 
      assert (H : forall b cs r k l k' l' w, n_classes (fold_left define b (mkNs cs r k l w)) = n_classes (fold_left define b (mkNs cs r k' l' w))).
      { clear. induction b as [|s b IH]; intros cs r k l k' l' w; [reflexivity|]. cbn [fold_left]. unfold define at 2 4. cbn [n_classes n_reg n_kept n_loaded n_warned]. destruct (k_name _); apply IH. }
      destruct st. apply H.
    - intros H. rewrite (proj2 (last_named_none _ _) H). reflexivity.
  Qed.

  (** Methods *)
  Lemma attr_fuel cs : (forall i j c, znth cs i = Some c -> k_parent c = Some j -> 0 <= j < i) -> forall f1 f2 i k, 0 <= i -> (Z.to_nat i < f1)%nat -> (Z.to_nat i < f2)%nat -> class_attr f1 cs i k = class_attr f2 cs i k.
  Proof.
    intros P. induction f1 as [|f1 IH]; intros f2 i k H0 L1 L2; [lia|]. destruct f2 as [|f2]; [lia|]. cbn [class_attr]. destruct (znth cs i) as [c|] eqn:E; [|reflexivity].
    destruct (look k (k_attrs c)); [reflexivity|]. destruct (k_parent c) as [j|] eqn:K; [|reflexivity]. specialize (P _ _ _ E K). apply IH; lia.
  Qed.
  Lemma attr_app cs cs' : (forall i j c, znth (cs ++ cs') i = Some c -> k_parent c = Some j -> 0 <= j < i) -> forall f i k, i < zlen cs -> class_attr f (cs ++ cs') i k = class_attr f cs i k.
  Proof.
    intros P. induction f as [|f IH]; intros i k L; [reflexivity|]. cbn [class_attr]. pose proof (P i) as Pi. rewrite znth_app in *. destruct (Z.ltb_spec i (zlen cs)); [|lia].
    destruct (znth cs i) as [c|] eqn:E; [|reflexivity]. destruct (look k (k_attrs c)); [reflexivity|]. destruct (k_parent c) as [j|] eqn:K; [|reflexivity]. apply IH. specialize (Pi _ _ eq_refl K). lia.
  Qed.
  Lemma look_map k l : look k (map (fun e => (fst e, stored (fst e) (snd e))) l) = match look k l with Some a => Some (stored k a) | None => None end.
  Proof. induction l as [|[n a] t IH]; [reflexivity|]. cbn [map look fst snd]. destruct (String.eqb_spec n k) as [->|]; [reflexivity|exact IH]. Qed.
  Theorem method_own st s k : reached points owner st -> look k (s_body s) = Some (Func 0) ->
    method (define st s) (zlen (n_classes st)) k = Ok (if private k then Namespace else Host).
  Proof.
    intros R L. destruct (define_shape st s) as (c & Ec & _ & _ & _ & A & _). unfold method. cbn [class_attr]. rewrite Ec, znth_app, (proj2 (Z.ltb_ge _ _)), Z.sub_diag by lia.
    change (znth [c] 0) with (Some c). cbv iota beta. rewrite A, look_map, L. cbn [stored]. destruct (private k); reflexivity.
  Qed.
  Theorem method_other st s k : reached points owner st -> look k (s_body s) = Some Other -> method (define st s) (zlen (n_classes st)) k = Err TypeError.
  Proof.
    intros R L. destruct (define_shape st s) as (c & Ec & _ & _ & _ & A & _). unfold method. cbn [class_attr]. rewrite Ec, znth_app, (proj2 (Z.ltb_ge _ _)), Z.sub_diag by lia.
    change (znth [c] 0) with (Some c). cbv iota beta. rewrite A, look_map, L. reflexivity.
  Qed.
  Theorem method_missing st s k : reached points owner st -> s_parent s = None -> look k (s_body s) = None -> method (define st s) (zlen (n_classes st)) k = Err AttributeError.
  Proof.
    intros R Np L. assert (S : exists c, n_classes (define st s) = n_classes st ++ [c] /\ k_parent c = None /\ k_attrs c = map (fun e => (fst e, stored (fst e) (snd e))) (s_body s)).
    { unfold define. rewrite Np. set (c := mkCls _ _ _ _). exists c. split; [destruct (k_name c); reflexivity|]. split; reflexivity. }
    destruct S as (c & Ec & Kp & A). unfold method. cbn [class_attr]. rewrite Ec, znth_app, (proj2 (Z.ltb_ge _ _)), Z.sub_diag by lia.
    change (znth [c] 0) with (Some c). cbv iota beta. rewrite A, look_map, L, Kp. reflexivity.
  Qed.
  Theorem method_inherited st s j k : reached points owner st -> s_parent s = Some j -> 0 <= j < zlen (n_classes st) -> look k (s_body s) = None ->
    method (define st s) (zlen (n_classes st)) k = method st j k.
  Proof.
    intros R Pj Rj L. pose proof (reached_good _ R) as G. pose proof (define_good st s G) as G'. destruct (define_shape st s) as (c & Ec & _ & _ & _ & A & Kp & _). unfold method at 1. cbn [class_attr]. rewrite Ec, znth_app, (proj2 (Z.ltb_ge _ _)), Z.sub_diag by lia.
    change (znth [c] 0) with (Some c). cbv iota beta. rewrite A, look_map, L, (Kp j Pj Rj).
    pose proof (g_parent _ G') as PP. rewrite Ec in PP. rewrite (attr_app _ _ PP) by lia. unfold method. f_equal. apply attr_fuel; [apply (g_parent _ G)|lia|lia|lia].
  Qed.
  Theorem method_kept st s i k : reached points owner st -> 0 <= i < zlen (n_classes st) -> method (define st s) i k = method st i k.
  Proof.
    intros R Ri. pose proof (reached_good _ R) as G. pose proof (define_good st s G) as G'. destruct (define_shape st s) as (c & Ec & _). unfold method. rewrite Ec. pose proof (g_parent _ G') as PP. rewrite Ec in PP. rewrite (attr_app _ _ PP) by lia. reflexivity.
  Qed.
End Namespaces.

Lemma names_ok st s : exists c, n_classes (define st s) = n_classes st ++ [c] /\
  k_group c = (match s_group s with Some g => Some g | None => match s_parent s with Some j => match znth (n_classes st) j with Some d => k_group d | None => None end | None => None end end) /\
  k_name c = (match s_name s with Some g => Some g | None => match s_parent s with Some j => match znth (n_classes st) j with Some d => k_name d | None => None end | None => None end end).
Proof.
  unfold define. set (c := mkCls _ _ _ _). exists c. split; [destruct (k_name c); reflexivity|]. subst c. cbn [k_group k_name].
  destruct (s_parent s) as [j|]; [destruct (znth (n_classes st) j)|]; auto.
Qed.
