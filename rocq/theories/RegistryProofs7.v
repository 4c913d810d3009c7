From Verif Require Import Base BaseFacts FrameModel CmProofs RegistryModel RegistrySpec RegistryShipped.
From Coq Require Import Strings.String.
Local Open Scope Z_scope.
Local Open Scope list_scope.

(** Deciding coherence. *)
Definition plugins_of (eps : eps_t) : list Z := List.concat (map snd eps).
Lemma plugins_of_spec eps x : In x (plugins_of eps) <-> plugin eps x.
Proof.
  unfold plugins_of, plugin. rewrite in_concat. split.
  - intros (l & Hl & Hx). apply in_map_iff in Hl as (e & <- & He). eauto.
  - intros (e & He & Hx). exists (snd e). split; auto. now apply in_map.
Qed.
Definition coherentb (w : world) (eps : eps_t) : bool :=
  forallb (fun x => existsb (fun e => has_reader x (snd e) && String.eqb (ep_format (fst e)) (format_of w x)) eps) (plugins_of eps) &&
  forallb (fun x => forallb (fun y => negb (id_eqb (key w x) (key w y)) || Z.eqb x y) (plugins_of eps)) (plugins_of eps) &&
  forallb (fun e => forallb (fun x => forallb (fun y => negb (String.eqb (format_of w y) (format_of w x)) || has_reader y (snd e))
                                        (plugins_of eps)) (snd e)) eps.
Lemma has_in x l : has_reader x l = true <-> In x l.
Proof.
  unfold has_reader. rewrite existsb_exists. split; [intros (y & Hy & E); apply Z.eqb_eq in E; now subst|].
  intros H. exists x. split; auto. apply Z.eqb_refl.
Qed.
Lemma coherentb_ok w eps : coherentb w eps = true -> coherent w eps.
Proof.
  unfold coherentb. rewrite !Bool.andb_true_iff, !forallb_forall. intros [[H1 H2] H3]. split; [|split].
  - intros x Hx. apply plugins_of_spec in Hx. specialize (H1 x Hx). apply existsb_exists in H1 as (e & He & E).
    apply Bool.andb_true_iff in E as [E1 E2]. exists e. split; auto. split; [now apply has_in|now apply String.eqb_eq].
  - intros x y Hx Hy K. apply plugins_of_spec in Hx, Hy. specialize (H2 x Hx). rewrite forallb_forall in H2. specialize (H2 y Hy).
    apply Bool.orb_true_iff in H2 as [H2|H2]; [|now apply Z.eqb_eq]. apply Bool.negb_true_iff in H2. exfalso.
    assert (id_eqb (key w x) (key w y) = true); [|congruence]. unfold id_eqb. rewrite K, !String.eqb_refl. reflexivity.
  - intros e x y He Hx Hy F. apply plugins_of_spec in Hy. specialize (H3 e He). rewrite forallb_forall in H3. specialize (H3 x Hx).
    rewrite forallb_forall in H3. specialize (H3 y Hy). apply Bool.orb_true_iff in H3 as [H3|H3]; [|now apply has_in].
    apply Bool.negb_true_iff in H3. rewrite F, String.eqb_refl in H3. discriminate.
Qed.
Lemma shipped_coherent : coherent shipped shipped_eps.
Proof. apply coherentb_ok. vm_compute. reflexivity. Qed.
Lemma shipped_exts x : NoDup (w_exts shipped x).
Proof.
  change (w_exts shipped x) with (snd (fst (shipped_reader x))). unfold shipped_reader.
  destruct (znth shipped_readers x) as [r|] eqn:E; [|constructor].
  assert (H : In r shipped_readers) by (now apply znth_in in E).
  assert (A : forall r, In r shipped_readers -> if list_eq_dec string_dec (nodup string_dec (snd (fst r))) (snd (fst r)) then True else False).
  { apply Forall_forall. vm_compute. repeat constructor. }
  specialize (A r H). destruct (list_eq_dec _ _ _) as [Q|]; [|destruct A]. rewrite <- Q. apply NoDup_nodup.
Qed.
