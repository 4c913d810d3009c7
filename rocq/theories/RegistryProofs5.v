From Verif Require ChunkProofs3.
From Verif Require Import Base BaseFacts FrameModel FrameProofs5 CmModel CmProofs CmProofs5 RegistryModel RegistrySpec RegistryProofs RegistryProofs2 RegistryProofs3 RegistryProofs4.
From Coq Require Import Strings.String Permutation Sorted.
Local Open Scope Z_scope.
Local Open Scope list_scope.

Section Facts.
  Variable w : world.
  Variable eps : eps_t.
  Variable order : list string -> list string.
  Hypothesis order_ok : set_order order.
  Notation grown := (grown w eps).

  (** What is yielded without a hint is registered. *)
  Definition within (s : stage) : Prop := forall m R l m', inv w m R -> s m = (Ok l, m') -> exists R', grown R m' R' /\ incl l R'.
  Lemma yield_within f v e t : Forall within (yield_fiberio w eps order f v e [] t).
  Proof.
    unfold yield_fiberio. destruct (truthy v && negb (truthy f)).
    { constructor; [|constructor]. intros m R r m' I [=]. }
    destruct f as [f|].
    { constructor; [|constructor]. intros m R l m' I E. destruct (format_stage_grown w eps f v m R (Ok l) m' I E) as (R' & G & _ & _ & _ & X).
      exists R'. split; auto. intros x Hx. now apply X in Hx. }
    assert (match t with Some s => assoc s (@nil (string * Z)) | None => None end = None) as -> by (destruct t; reflexivity). cbn [app].
    destruct e as [e|].
    - constructor; [|constructor; [|constructor]].
      + intros m R l m' I E. destruct (ext_stage_grown w eps e t m R l m' I E) as (R' & G & X & _). exists R'. split; auto.
        intros x Hx. now apply X.
      + intros m R l m' I E. destruct (rest_stage_grown w eps order order_ok e t m R l m' I E) as (R' & G & _ & X). exists R'. split; auto.
        intros x Hx. now apply X.
    - constructor; [|constructor]. intros m R l m' I E. unfold prio_stage in E. destruct (prio w eps order m t) as [q m1] eqn:P.
      destruct (prio_grown w eps order order_ok m R t q m1 I P) as (R' & G & _ & X & _). injection E as <- <-. eauto.
  Qed.
  Lemma run_all_within ss : Forall within ss -> forall m R l m', inv w m R -> run_all ss m = (Ok l, m') ->
    exists R', grown R m' R' /\ incl l R'.
  Proof.
    induction 1 as [|s ss Hs _ IH]; intros m R l m' I; cbn.
    { intros [= <- <-]. exists R. split; [now apply grown_refl|intros x []]. }
    destruct (s m) as [[l0|er] m1] eqn:E; [|discriminate].
    destruct (Hs m R l0 m1 I E) as (R1 & G1 & S1). destruct (run_all ss m1) as [[l2|] m2] eqn:E2; [|discriminate].
    destruct (IH m1 R1 l2 m2 (proj1 G1) E2) as (R2 & G2 & S2). intros [= <- <-]. exists R2. split; [eapply grown_trans; eauto|].
    intros x Hx. apply in_app_or in Hx as [Hx|Hx]; auto. apply (grown_incl w eps _ _ _ G2). auto.
  Qed.
  Lemma first_of_within ss : Forall within ss -> Forall (steady w eps) ss -> forall m R x m', inv w m R -> first_of ss m = (Ok (Some x), m') ->
    exists R', grown R m' R' /\ In x R'.
  Proof.
    intros H0. induction H0 as [|s ss Hs _ IH]; intros HS m R x m' I; cbn; [discriminate|]. inversion HS; subst.
    destruct (s m) as [[[|y l]|er] m1] eqn:E; [| |discriminate].
    - destruct (Hs m R _ m1 I E) as (R1 & G1 & _). intros E2. destruct (IH H2 m1 R1 x m' (proj1 G1) E2) as (R2 & G2 & S2). exists R2. split; auto.
      eapply grown_trans; eauto.
    - intros [= -> <-]. destruct (Hs m R _ m1 I E) as (R1 & G1 & S1). exists R1. split; auto. apply S1. left; auto.
  Qed.

  Lemma get_grown q m R r m' : inv w m R -> get_fiberio w eps order q m = (r, m') -> exists R', grown R m' R'.
  Proof.
    intros I. unfold get_fiberio. destruct (find _ _).
    { intros [= <- <-]. exists R. now apply grown_refl. }
    destruct q as [[f v] e]. destruct (first_of _ m) as [[x|er] m1] eqn:E.
    - intros [= <- <-]. pose proof (yield_steady w eps order order_ok f v e [] None) as S.
      assert (exists R1, grown R m1 R1 /\ forall y, x = Some y -> In y R1) as (R1 & G1 & X).
      { destruct x as [y|].
        - destruct (first_of_within _ (yield_within f v e None) S m R y m1 I E) as (R1 & G1 & X). exists R1. split; auto. now intros ? [= <-].
        - destruct (first_of_grown w eps _ S m R _ m1 I E) as (R1 & G1). exists R1. split; auto. discriminate. }
      exists R1. apply (grown_to w eps R m1); auto. destruct (proj1 G1) as [T K B P Q]. split; auto.
      + apply (tables_ext w m1); auto. apply (t_fmts _ _ _ T).
      + cbn. intros q y H. apply in_app_or in H as [H|[[= <- H]|[]]]; eauto.
    - intros [= <- <-]. exact (first_of_grown w eps _ (yield_steady w eps order order_ok f v e [] None) m R _ m1 I E).
  Qed.

  Lemma apply_inv m R o : inv w m R -> exists R', inv w (apply_op w eps order m o) R' /\ incl R R' /\
    forall x, In x R' -> In x R \/ plugin eps x \/ (exists xs, o = Register xs /\ In x xs).
  Proof.
    intros I. assert (GR : forall m' R', grown R m' R' -> inv w m' R' /\ incl R R' /\ forall x, In x R' -> In x R \/ plugin eps x \/ (exists xs, o = Register xs /\ In x xs)).
    { intros m' R' G. split; [apply G|]. split; [eapply grown_incl; eauto|]. destruct G as [_ (ex & P & ->)]. intros x Hx.
      apply add_readers_in in Hx as [Hx|Hx]; auto. }
    destruct o as [x|fmt| |q|f v e h t|a f v e h t]; cbn [apply_op].
    - exists (add_readers w R x). split; [now apply registers_inv|]. split; [intros y Hy; exact (add_readers_sub w x R y Hy)|].
      intros y Hy. destruct (add_readers_in w x R y Hy) as [H|H]; eauto.
    - destruct (load_grown w eps m R fmt I) as (R' & G). eauto.
    - destruct (known eps m) as [k m'] eqn:K. destruct (known_inv w eps m R k m' I K) as [I' _]. exists R. apply GR. cbn.
      apply (grown_to w eps R m); auto. now apply grown_refl.
    - destruct (get_fiberio w eps order q m) as [r m'] eqn:E. destruct (get_grown q m R r m' I E) as (R' & G). eauto.
    - destruct (run_all _ m) as [r m'] eqn:E. destruct (run_all_grown w eps _ (yield_steady w eps order order_ok f v e h t) m R r m' I E) as (R' & G). eauto.
    - unfold get_format. destruct (detect _ _ m) as [r m'] eqn:E.
      destruct (detect_grown w eps a _ (yield_steady w eps order order_ok f v e h (Some t)) m R r m' I E) as (R' & G). eauto.
  Qed.
  Lemma after_inv ops : exists R, inv w (after w eps order ops) R /\
    forall x, In x R -> plugin eps x \/ exists xs, In (Register xs) ops /\ In x xs.
  Proof.
    unfold after. induction ops as [|o ops IH] using rev_ind.
    { exists []. split; [apply inv_empty|intros x []]. }
    destruct IH as (R & I & P). rewrite fold_left_app. cbn [fold_left]. destruct (apply_inv _ R o I) as (R' & I' & _ & P').
    exists R'. split; auto. intros x Hx. destruct (P' x Hx) as [H|[H|(xs & -> & H)]]; auto.
    - destruct (P x H) as [?|(xs & H1 & H2)]; auto. right. exists xs. split; auto. apply in_or_app; auto.
    - right. exists xs. split; auto. apply in_or_app. right. left; auto.
  Qed.

  (** ** Statements about every reachable manager *)
  Lemma register_taken m R x y : inv w m R -> registered w m y -> key w y = key w x -> register w m x = m.
  Proof.
    intros I H K. apply (inv_registered w m R y I) in H. unfold register.
    assert (existsb (id_eqb (upper (w_name w x), w_ver w x)) (m_ids m) = true) as ->; auto.
    apply existsb_exists. exists (key w x). split; [|now apply id_eqb_spec]. apply (t_ids _ _ _ (i_tables _ _ _ I)). eauto.
  Qed.
  Lemma register_new m R x : inv w m R -> (forall y, registered w m y -> key w y <> key w x) ->
    forall y, registered w (register w m x) y <-> registered w m y \/ y = x.
  Proof.
    intros I H y. rewrite (inv_registered w _ _ y (register_inv w m R x I)), (inv_registered w m R y I).
    unfold add_reader. assert (known_key w x R = false) as ->.
    { apply known_key_not. intros z Hz. apply H. now apply (inv_registered w m R z I). }
    rewrite in_app_iff. cbn. intuition.
  Qed.

  Lemma yield_all ops f v e t l m' : (forall x, NoDup (w_exts w x)) ->
    run_all (yield_fiberio w eps order f v e [] t) (after w eps order ops) = (Ok l, m') ->
    NoDup l /\ forall x, In x l -> registered w m' x.
  Proof.
    intros HN E. destruct (after_inv ops) as (R & I & _). set (m := after w eps order ops) in *.
    destruct (run_all_within _ (yield_within f v e t) m R l m' I E) as (R' & G & S). split.
    2:{ intros x Hx. apply (inv_registered w m' R' x (proj1 G)). auto. }
    revert E. unfold yield_fiberio. destruct (truthy v && negb (truthy f)); [discriminate|].
    destruct f as [f|].
    { cbn. destruct (format_stage w eps f v m) as [[l0|] m1] eqn:F; [|discriminate].
      destruct (format_stage_grown w eps f v m R _ m1 I F) as (R1 & _ & _ & N & _). intros [= <- _]. now rewrite app_nil_r. }
    assert (match t with Some s => assoc s (@nil (string * Z)) | None => None end = None) as -> by (destruct t; reflexivity). cbn [app].
    destruct e as [e|].
    - cbn [run_all]. destruct (ext_stage w eps e t m) as [[l1|] m1] eqn:E1; [|discriminate].
      destruct (ext_stage_grown w eps e t m R l1 m1 I E1) as (R1 & G1 & X1 & N1).
      destruct (rest_stage w eps order e t m1) as [[l2|] m2] eqn:E2; [|discriminate].
      destruct (rest_stage_grown w eps order order_ok e t m1 R1 l2 m2 (proj1 G1) E2) as (R2 & G2 & N2 & X2).
      intros [= <- _]. rewrite app_nil_r. apply NoDup_app_intro; auto. intros x H1 H2. apply X1 in H1. apply X2 in H2. tauto.
    - cbn [run_all]. unfold prio_stage. destruct (prio w eps order m t) as [q m1] eqn:P.
      destruct (prio_grown w eps order order_ok m R t q m1 I P) as (R1 & _ & N & _). intros [= <- _]. now rewrite app_nil_r.
  Qed.
  Lemma yield_ext ops e t l m' :
    run_all (yield_fiberio w eps order None None (Some e) [] t) (after w eps order ops) = (Ok l, m') ->
    exists a b, l = a ++ b /\ (forall x, In x a -> In e (w_exts w x)) /\ (forall x, In x b -> ~ In e (w_exts w x)).
  Proof.
    destruct (after_inv ops) as (R & I & _). set (m := after w eps order ops) in *.
    unfold yield_fiberio. cbn [truthy andb].
    assert (match t with Some s => assoc s (@nil (string * Z)) | None => None end = None) as -> by (destruct t; reflexivity). cbn [app].
    cbn [run_all]. destruct (ext_stage w eps e t m) as [[l1|] m1] eqn:E1; [|discriminate].
    destruct (ext_stage_grown w eps e t m R l1 m1 I E1) as (R1 & G1 & X1 & N1).
    destruct (rest_stage w eps order e t m1) as [[l2|] m2] eqn:E2; [|discriminate].
    destruct (rest_stage_grown w eps order order_ok e t m1 R1 l2 m2 (proj1 G1) E2) as (R2 & G2 & N2 & X2).
    intros [= <- _]. rewrite app_nil_r. exists l1, l2. split; auto. split; intros x Hx; [now apply X1|now apply X2].
  Qed.
  Lemma yield_ranked ops t l m' :
    run_all (yield_fiberio w eps order None None None [] t) (after w eps order ops) = (Ok l, m') ->
    exists a b, l = a ++ b /\ NoDup (map (format_of w) a) /\
      (forall x y, In x a -> In y l -> format_of w x = format_of w y -> String.leb (w_ver w y) (w_ver w x) = true) /\
      (forall y, In y b -> exists x, registered w m' x /\ format_of w x = format_of w y /\ w_ver w x <> w_ver w y /\
         String.leb (w_ver w y) (w_ver w x) = true).
  Proof.
    destruct (after_inv ops) as (R & I & _). set (m := after w eps order ops) in *.
    unfold yield_fiberio. cbn [truthy andb].
    assert (match t with Some s => assoc s (@nil (string * Z)) | None => None end = None) as -> by (destruct t; reflexivity). cbn [app].
    cbn [run_all]. unfold prio_stage. destruct (prio w eps order m t) as [q m1] eqn:P.
    destruct (prio_grown w eps order order_ok m R t q m1 I P) as (R1 & G & N & _ & (a & b & E & A1 & A2 & A3)). intros [= <- <-].
    rewrite app_nil_r. exists a, b. split; auto. split; auto. split; auto. intros y Hy. destruct (A3 y Hy) as (x & Hx & K).
    exists x. split; auto. now apply (inv_registered w m1 R1 x (proj1 G)).
  Qed.
  Lemma yield_format ops f v e h t r m' :
    run_all (yield_fiberio w eps order (Some f) v e h t) (after w eps order ops) = (r, m') -> f <> ""%string ->
    match r with
    | Ok l => l <> [] /\ NoDup l /\ StronglySorted (newer w) l /\
        (forall x, In x l <-> registered w m' x /\ format_of w x = upper f /\ (truthy v = true -> v = Some (w_ver w x)))
    | Err er => er = UnknownFiberFormatError /\
        (forall x, registered w m' x -> format_of w x = upper f -> truthy v = true /\ v <> Some (w_ver w x))
    end.
  Proof.
    intros E NF. destruct (after_inv ops) as (R & I & _). set (m := after w eps order ops) in *.
    revert E. unfold yield_fiberio.
    assert (truthy (Some f) = true) as TF by (destruct f; [contradiction|reflexivity]). rewrite TF. rewrite Bool.andb_false_r.
    cbn [run_all]. destruct (format_stage w eps f v m) as [r1 m1] eqn:F.
    destruct (format_stage_grown w eps f v m R r1 m1 I F) as (R1 & G & X). pose proof (inv_registered w m1 R1) as IR.
    destruct r1 as [l|er]; intros E; injection E as <- <-.
    - rewrite app_nil_r. destruct X as (X1 & X2 & X3 & X4). repeat (split; auto). 
      + apply IR; [apply G|]. now apply X4 in H.
      + now apply X4 in H.
      + now apply X4 in H.
      + intros (H1 & H2). apply X4. split; auto. apply IR in H1; [auto|apply G].
    - destruct X as [X1 X2]. split; auto. intros x Hx. apply X2. apply IR in Hx; [auto|apply G].
  Qed.

  (** ** Detection *)
  Lemma find_answer_app {A} (a : Z -> option A) l1 l2 : find_answer a (l1 ++ l2) = match find_answer a l1 with Some x => Some x | None => find_answer a l2 end.
  Proof. induction l1 as [|x l IH]; cbn; auto. now destruct (a x). Qed.
  Lemma detect_first {A} (a : Z -> option A) ss : forall m l m', run_all ss m = (Ok l, m') ->
    fst (detect a ss m) = match find_answer a l with Some x => Ok x | None => Err UnknownFiberFormatError end.
  Proof.
    induction ss as [|s ss IH]; intros m l m'; cbn; [now intros [= <- _]|].
    destruct (s m) as [[l0|] m1]; [|discriminate]. destruct (run_all ss m1) as [[l2|] m2] eqn:E; [|discriminate].
    intros [= <- _]. rewrite find_answer_app. destruct (find_answer a l0); auto. now apply (IH m1 l2 m2).
  Qed.
  Lemma find_answer_spec {A} (a : Z -> option A) l : match find_answer a l with
    | Some y => exists l1 x l2, l = l1 ++ x :: l2 /\ a x = Some y /\ forall z, In z l1 -> a z = None
    | None => forall z, In z l -> a z = None
    end.
  Proof.
    induction l as [|x l IH]; cbn; [intros z []|]. destruct (a x) as [y|] eqn:E.
    - exists [], x, l. split; auto. split; auto. intros z [].
    - destruct (find_answer a l) as [y|].
      + destruct IH as (l1 & x0 & l2 & -> & A1 & A2). exists (x :: l1), x0, l2. split; auto. split; auto. intros z [<-|Hz]; auto.
      + intros z [<-|Hz]; auto.
  Qed.
End Facts.
