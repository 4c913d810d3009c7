From Verif Require ChunkProofs3.
From Verif Require Import Base BaseFacts FrameModel FrameProofs5 CmModel CmProofs CmProofs5 RegistryModel RegistrySpec RegistryProofs RegistryProofs2 RegistryProofs3.
From Coq Require Import Strings.String Permutation Sorted.
Local Open Scope Z_scope.
Local Open Scope list_scope.

Lemma inv_registered w m R x : inv w m R -> (registered w m x <-> In x R).
Proof.
  intros [T _ _ _ _]. unfold registered. rewrite (t_vers _ _ _ T). split; [tauto|]. intros H. split; auto.
Qed.

Lemma get_touches {A} ks (d : list (string * list A)) f : get_list f (fold_left (fun d f => touch f d) ks d) = get_list f d.
Proof. revert d. induction ks as [|k ks IH]; intros d; cbn; auto. now rewrite IH, get_list_touch. Qed.
Lemma NoDup_touches {A} ks (d : list (string * list A)) : NoDup (map fst d) -> NoDup (map fst (fold_left (fun d f => touch f d) ks d)).
Proof. revert d. induction ks as [|k ks IH]; intros d N; cbn; auto. apply IH. now apply NoDup_touch. Qed.

Section Facts.
  Variable w : world.
  Variable eps : eps_t.
  Variable order : list string -> list string.
  Hypothesis order_ok : set_order order.

  (** [m'] has the readers [R'], which are those of [R] and some plugins. *)
  Definition grown (R : list Z) (m' : mgr) (R' : list Z) : Prop := inv w m' R' /\
    exists extra, from_plugins eps extra /\ R' = add_readers w R extra.
  Lemma grown_refl R m : inv w m R -> grown R m R.
  Proof. intros I. split; auto. exists []. split; auto. intros x []. Qed.
  Lemma grown_trans R m1 R1 m2 R2 : grown R m1 R1 -> grown R1 m2 R2 -> grown R m2 R2.
  Proof.
    intros [_ (a & Pa & Ea)] [I (b & Pb & Eb)]. split; auto. exists (a ++ b). split.
    - intros x H. apply in_app_or in H as [H|H]; auto.
    - now rewrite add_readers_app, <- Ea.
  Qed.
  Lemma grown_incl R m R' : grown R m R' -> incl R R'.
  Proof. intros [_ (a & _ & ->)] x H. now apply add_readers_sub. Qed.
  Lemma grown_to R m R' m2 : grown R m R' -> inv w m2 R' -> grown R m2 R'.
  Proof. intros [_ H] I. split; auto. Qed.
  Lemma load_grown m R fmt : inv w m R -> exists R', grown R (load w eps m fmt) R'.
  Proof. intros I. destruct (load_inv w eps m R fmt I) as (e & P & I'). eexists. split; eauto. Qed.

  Lemma prio_grown m R t l m' : inv w m R -> prio w eps order m t = (l, m') ->
    exists R', grown R m' R' /\ NoDup l /\ incl l R' /\ ranked w R' l.
  Proof.
    intros I. unfold prio. destruct (cached t (m_prio m)) as [l0|] eqn:C.
    { intros [= <- <-]. exists R. split; [now apply grown_refl|]. apply (i_prio _ _ _ I t). now apply cached_in. }
    destruct (load_grown m R None I) as (R1 & G1). set (m1 := load w eps m None) in *.
    destruct (known eps m1) as [k m2] eqn:K. destruct (known_inv w eps m1 R1 k m2 (proj1 G1) K) as (I2 & NK & _ & EV & _).
    set (m3 := set_vers (fold_left (fun d f => touch f d) (order k) (m_vers m2)) m2).
    assert (I3 : inv w m3 R1).
    { destruct I2 as [T2 K2 B2 P2 Q2]. split; auto. apply (tables_ext w m2); auto; cbn.
      - intros f. apply get_touches.
      - apply NoDup_touches. apply (t_fmts _ _ _ T2). }
    destruct (by_type m3 t) as [valid m4] eqn:B. destruct (by_type_inv w m3 R1 t valid m4 I3 B) as (I4 & _).
    intros E. injection E as <- <-.
    assert (NO : NoDup (order k)) by (eapply Permutation_NoDup; [symmetry; apply order_ok|exact NK]).
    destruct (maybe_ranked w m2 R1 (order k) (i_tables _ _ _ I2) NO) as (M1 & M2 & M3).
    match goal with |- context [filter ?kp ?mb] => set (out := filter kp mb) end.
    assert (X : NoDup out /\ incl out R1 /\ ranked w R1 out).
    { split; [apply NoDup_filter; auto|]. split; [|apply M3]. intros x Hx. apply filter_In in Hx as [Hx _]. now apply M2 in Hx. }
    exists R1. split; [|exact X]. apply (grown_to _ m1); auto. destruct I4 as [T4 K4 B4 P4 Q4]. split; auto.
    - apply (tables_ext w m4); auto. apply (t_fmts _ _ _ T4).
    - cbn. intros t0 l0 H. apply in_app_or in H as [H|[[= <- <-]|[]]]; [exact (P4 t0 l0 H)|exact X].
  Qed.

  Lemma ext_list m R e : inv w m R -> get_list e (m_exts m) = flat_map (fun x => map (fun _ => x) (filter (String.eqb e) (w_exts w x))) R.
  Proof. intros I. apply (t_exts _ _ _ (i_tables _ _ _ I)). Qed.
  Lemma in_ext m R e x : inv w m R -> (In x (get_list e (m_exts m)) <-> In x R /\ In e (w_exts w x)).
  Proof.
    intros I. rewrite (ext_list m R e I), in_flat_map. split.
    - intros (y & Hy & H). apply in_map_iff in H as (e' & <- & H). apply filter_In in H as [H E]. apply String.eqb_eq in E. subst. auto.
    - intros [Hx He]. exists x. split; auto. apply in_map_iff. exists e. split; auto. apply filter_In. split; auto. apply String.eqb_refl.
  Qed.
  Lemma nodup_ext m R e : inv w m R -> (forall x, NoDup (w_exts w x)) -> NoDup (get_list e (m_exts m)).
  Proof.
    intros I HN. rewrite (ext_list m R e I). pose proof (distinct_nodup _ _ (t_distinct _ _ _ (i_tables _ _ _ I))) as N.
    clear I. induction R as [|x R IH]; cbn; [constructor|]. inversion N as [|? ? NI N']; subst. apply NoDup_app_intro; auto.
    - specialize (HN x). induction (w_exts w x) as [|e0 es IHe]; cbn; [constructor|]. inversion HN as [|? ? NE HN']; subst.
      destruct (String.eqb_spec e e0) as [->|]; cbn; auto. rewrite (ChunkProofs3.filter_none (String.eqb e0) es); [cbn; repeat constructor; auto|].
      intros y Hy. apply String.eqb_neq. intros ->. auto.
    - intros y Hy C. apply in_map_iff in Hy as (_ & <- & _). apply in_flat_map in C as (z & Hz & C).
      apply in_map_iff in C as (_ & -> & _). auto.
  Qed.
  Lemma has_reader_spec x l : has_reader x l = true <-> In x l.
  Proof.
    unfold has_reader. rewrite existsb_exists. split; [intros (y & H & E); apply Z.eqb_eq in E; now subst|].
    intros H. exists x. split; auto. apply Z.eqb_refl.
  Qed.

  Lemma ext_stage_grown e t m R l m' : inv w m R -> ext_stage w eps e t m = (Ok l, m') ->
    exists R', grown R m' R' /\ (forall x, In x l -> In x R' /\ In e (w_exts w x)) /\
      ((forall x, NoDup (w_exts w x)) -> NoDup l).
  Proof.
    intros I. unfold ext_stage. destruct (load_grown m R None I) as (R1 & G1). set (m1 := load w eps m None) in *.
    destruct (by_type m1 t) as [valid m2] eqn:B. destruct (by_type_inv w m1 R1 t valid m2 (proj1 G1) B) as (I2 & _ & _ & EE & _).
    intros E. injection E as <- <-. exists R1. split; [|split].
    - apply (grown_to _ m1); auto. destruct I2 as [T2 K2 B2 P2 Q2]. split; auto.
      apply (tables_ext w m2); auto; cbn; [apply (t_fmts _ _ _ T2)|]. intros; apply get_list_touch.
    - intros x Hx. apply filter_In in Hx as [Hx _]. now apply (in_ext m2 R1 e x I2) in Hx.
    - intros HN. apply NoDup_filter. eapply nodup_ext; eauto.
  Qed.
  Lemma rest_stage_grown e t m R l m' : inv w m R -> rest_stage w eps order e t m = (Ok l, m') ->
    exists R', grown R m' R' /\ NoDup l /\ (forall x, In x l -> In x R' /\ ~ In e (w_exts w x)).
  Proof.
    intros I. unfold rest_stage. destruct (prio w eps order m t) as [q m1] eqn:P.
    destruct (prio_grown m R t q m1 I P) as (R1 & G1 & N & IN & _). intros E. injection E as <- <-.
    exists R1. split; auto. split; [now apply NoDup_filter|]. intros x Hx. apply filter_In in Hx as [Hx Hn].
    split; [apply IN; auto|]. intros C. rewrite Bool.negb_true_iff in Hn.
    assert (has_reader x (get_list e (m_exts m1)) = true); [|congruence]. apply has_reader_spec.
    apply (in_ext m1 R1 e x (proj1 G1)). split; auto.
  Qed.

  Lemma format_stage_grown f v m R r m' : inv w m R -> format_stage w eps f v m = (r, m') ->
    exists R', grown R m' R' /\
      match r with
      | Ok l => l <> [] /\ NoDup l /\ StronglySorted (newer w) l /\
          (forall x, In x l <-> In x R' /\ format_of w x = upper f /\ (truthy v = true -> v = Some (w_ver w x)))
      | Err e => e = UnknownFiberFormatError /\
          (forall x, In x R' -> format_of w x = upper f -> truthy v = true /\ v <> Some (w_ver w x))
      end.
  Proof.
    intros I. unfold format_stage. destruct (load_grown m R (Some f) I) as (R1 & G1). set (m1 := load w eps m (Some f)) in *.
    destruct (load_grown m1 R1 (Some (upper f)) (proj1 G1)) as (R2 & G2). set (m2 := load w eps m1 (Some (upper f))) in *.
    pose proof (grown_trans _ _ _ _ _ G1 G2) as G. pose proof (proj1 G2) as I2.
    destruct (newest_first_spec w m2 R2 (upper f) (i_tables _ _ _ I2)) as (N & IN & SS).
    pose proof (t_vers _ _ _ (i_tables _ _ _ I2) (upper f)) as TV.
    destruct (get_list (upper f) (m_vers m2)) as [|p d] eqn:D.
    - destruct (known eps m2) as [k m3] eqn:K. destruct (known_inv w eps m2 R2 k m3 I2 K) as (I3 & _).
      intros E. injection E as <- <-. exists R2. split; [eapply grown_to; eauto|]. split; auto.
      intros x Hx Fx. exfalso. cbn in IN. destruct (proj2 (IN x) (conj Hx Fx)).
    - destruct (truthy v) eqn:TR.
      + destruct v as [v|]; [|discriminate]. destruct (assoc v (p :: d)) as [x|] eqn:A.
        * intros E. injection E as <- <-. apply TV in A as [Hx Kx]. exists R2. split; auto. split; [discriminate|].
          split; [repeat constructor; auto|]. split; [repeat constructor|]. intros y. unfold key in Kx. injection Kx as K1 K2. split.
          -- intros [<-|[]]. split; auto. split; auto. intros _. now rewrite K2.
          -- intros (Hy & Fy & Vy). left. specialize (Vy eq_refl). assert (Vy2 : v = w_ver w y) by congruence.
             apply (distinct_inj w R2); auto; [apply (t_distinct _ _ _ (i_tables _ _ _ I2))|]. unfold key. congruence.
        * intros E. injection E as <- <-. exists R2. split; auto. split; auto. intros x Hx Fx. split; auto. intros E.
          assert (assoc v (p :: d) = Some x); [|congruence]. apply TV. split; auto. unfold key. congruence.
      + intros E. injection E as <- <-. exists R2. split; auto. split; [|split; [auto|split; auto]].
        * unfold newest_first. cbn [fold_right]. intros E.
          assert (L : List.length (map snd (insert_desc p (fold_right insert_desc [] d))) = S (List.length d)).
          { rewrite map_length. rewrite (Permutation_length (insert_desc_perm _ _)). cbn. f_equal. apply Permutation_length, sort_desc_perm. }
          rewrite E in L. discriminate.
        * intros x. rewrite IN. split; [intros [? ?]; repeat split; auto; discriminate|intros (? & ? & _); auto].
  Qed.

  (** ** Any operation *)
  Definition steady (s : stage) : Prop := forall m R r m', inv w m R -> s m = (r, m') -> exists R', grown R m' R'.
  Lemma yield_steady f v e h t : Forall steady (yield_fiberio w eps order f v e h t).
  Proof.
    unfold yield_fiberio. destruct (truthy v && negb (truthy f)).
    { constructor; [|constructor]. intros m R r m' I [= <- <-]. exists R. now apply grown_refl. }
    destruct f as [f|].
    { constructor; [|constructor]. intros m R r m' I E. destruct (format_stage_grown f v m R r m' I E) as (R' & G & _). eauto. }
    apply Forall_app. split.
    - destruct (match t with Some s => assoc s h | None => None end); constructor; [|constructor].
      intros m R r m' I [= <- <-]. exists R. now apply grown_refl.
    - destruct e as [e|].
      + constructor; [|constructor; [|constructor]].
        * intros m R r m' I E. destruct r as [l|er]; [destruct (ext_stage_grown e t m R l m' I E) as (R' & G & _); eauto|].
          unfold ext_stage in E. destruct (by_type _ _) in E. discriminate.
        * intros m R r m' I E. destruct r as [l|er]; [destruct (rest_stage_grown e t m R l m' I E) as (R' & G & _); eauto|].
          unfold rest_stage in E. destruct (prio _ _ _ _ _) in E. discriminate.
      + constructor; [|constructor]. intros m R r m' I E. unfold prio_stage in E. destruct (prio w eps order m t) as [l m1] eqn:P.
        destruct (prio_grown m R t l m1 I P) as (R' & G & _). injection E as <- <-. eauto.
  Qed.
  Lemma run_all_grown ss : Forall steady ss -> forall m R r m', inv w m R -> run_all ss m = (r, m') -> exists R', grown R m' R'.
  Proof.
    induction 1 as [|s ss Hs _ IH]; intros m R r m' I; cbn.
    { intros [= <- <-]. exists R. now apply grown_refl. }
    destruct (s m) as [[l|er] m1] eqn:E.
    - destruct (Hs m R (Ok l) m1 I E) as (R1 & G1). destruct (run_all ss m1) as [r2 m2] eqn:E2.
      destruct (IH m1 R1 r2 m2 (proj1 G1) E2) as (R2 & G2). intros E3. exists R2.
      assert (m' = m2) as -> by (destruct r2; injection E3; auto). eapply grown_trans; eauto.
    - intros [= <- <-]. eauto.
  Qed.
  Lemma first_of_grown ss : Forall steady ss -> forall m R r m', inv w m R -> first_of ss m = (r, m') -> exists R', grown R m' R'.
  Proof.
    induction 1 as [|s ss Hs _ IH]; intros m R r m' I; cbn.
    { intros [= <- <-]. exists R. now apply grown_refl. }
    destruct (s m) as [[[|x l]|er] m1] eqn:E.
    - destruct (Hs m R _ m1 I E) as (R1 & G1). intros E2. destruct (IH m1 R1 r m' (proj1 G1) E2) as (R2 & G2). exists R2. eapply grown_trans; eauto.
    - intros [= <- <-]. eauto.
    - intros [= <- <-]. eauto.
  Qed.
  Lemma detect_grown {A} (ans : Z -> option A) ss : Forall steady ss -> forall m R r m', inv w m R -> detect ans ss m = (r, m') -> exists R', grown R m' R'.
  Proof.
    induction 1 as [|s ss Hs _ IH]; intros m R r m' I; cbn.
    { intros [= <- <-]. exists R. now apply grown_refl. }
    destruct (s m) as [[l|er] m1] eqn:E.
    - destruct (Hs m R _ m1 I E) as (R1 & G1). destruct (find_answer ans l); [intros [= <- <-]; eauto|].
      intros E2. destruct (IH m1 R1 r m' (proj1 G1) E2) as (R2 & G2). exists R2. eapply grown_trans; eauto.
    - intros [= <- <-]. eauto.
  Qed.
End Facts.
