(** Lemmas behind FourierProps.v: the transform of a patch, and back. *)
From Verif Require Import Base BaseFacts CoordModel CoordSpec CoordProofs NdModel NdSpec NdProofs NdProofs2
  FrameModel FrameProofs FrameProofs5 ChunkModel CmModel CmSpec CmProofs CmProofs2 CmProofs3 CmProofs5 CmProofs12 CmProofs13 CmProofs14
  CmProofs17 ProcModel ProcSpec ProcProofs2 ProcProofs3 ProcProofs5 FourierModel FourierSpec FourierProofs FourierProofs2 FourierProofs3 FourierProofs4
  FourierProofs5.
From Coq Require Import Strings.String Strings.Ascii ZifyBool Sorting.Permutation.
Ltac Zify.zify_post_hook ::= Z.div_mod_to_equations.
Local Open Scope Z_scope.
Local Open Scope list_scope.

Definition dft_order (rn : option string) (ds : list string) : list string :=
  match rn with Some x => to_end x ds | None => ds end.

Lemma real_dim_in real ds x : real_dim real ds = Some x -> In x ds.
Proof.
  destruct real as [| |d]; cbn [real_dim]; [discriminate| |].
  - destruct (rev ds) as [|y t] eqn:R; [discriminate|]. intros Q. assert (y = x) by congruence. subst y.
    apply in_rev. rewrite R. left. reflexivity.
  - destruct (mem d ds) eqn:M; [|discriminate]. intros Q. assert (d = x) by congruence. subst d. apply mem_In', M.
Qed.
Lemma order_ok rn ds : NoDup ds -> (forall x, rn = Some x -> In x ds) ->
  Permutation ds (dft_order rn ds) /\ NoDup (dft_order rn ds) /\ forall x, rn = Some x -> dft_order rn ds = removelast (dft_order rn ds) ++ [x].
Proof.
  intros N H. unfold dft_order. destruct rn as [x|].
  - destruct (to_end_ok x ds N (H x eq_refl)) as (a & b & c & _). split; [exact a|]. split; [exact c|].
    intros y Q. assert (y = x) by congruence. subst y. exact b.
  - split; [reflexivity|]. split; [exact N|discriminate].
Qed.

Lemma dft_front {A} (zero : A) fast fftn rfftn scale fp dim real pad ds : wf_cm (p_cm (f_patch fp)) ->
  asked_dims (p_cm (f_patch fp)) dim = ds -> even_dims_of (p_cm (f_patch fp)) ds ->
  dft zero fast fftn rfftn scale fp dim real pad =
    do q <- (if pad then pt_pad fast (f_patch fp) zero true false (map (fun d => (d, PadFft)) (dft_order (real_dim real ds) ds)) else Ok (f_patch fp));
    dft_tail fftn rfftn scale q (dft_order (real_dim real ds) ds) (real_dim real ds) (if pad then Some (p_cm (f_patch fp)) else None) pad.
Proof.
  intros W QD (N & NE & E). unfold dft. set (cm := p_cm (f_patch fp)) in *. fold (asked_dims cm dim). rewrite QD.
  assert (forallb (fun d => mem d (map fst (cm_coords cm))) ds = true) as ->.
  { apply forallb_forall. intros d I. apply mem_In', assoc_In. destruct (E d I) as [_ (r & R)]. eauto. }
  cbn [negb].
  assert (untransformed cm ds = ds) as ->.
  { unfold untransformed. rewrite (filter_ext_in _ (fun _ => true)).
    - clear. induction ds as [|x t IH]; [reflexivity|]. cbn [filter]. rewrite IH. reflexivity.
    - intros d I. rewrite (proj2 (mem_In' d (cm_dims cm)) (proj1 (E d I))). reflexivity. }
  cbv zeta.
  assert (match (match real with RNo => None | RLast => match rev ds with d :: _ => Some d | [] => None end | RName d => Some d end) with
      Some d => if mem d ds then Some d else None | None => None end = real_dim real ds) as ->.
  { destruct real as [| |d]; cbn [real_dim]; [reflexivity| |reflexivity]. destruct (rev ds) as [|y t] eqn:R; [reflexivity|].
    rewrite (proj2 (mem_In' y ds)); [reflexivity|]. apply in_rev. rewrite R. left. reflexivity. }
  assert ((match ds with [] => true | _ => false end) = false) as -> by (destruct ds; [contradiction|reflexivity]).
  rewrite (no_dup_has ds N). fold (dft_order (real_dim real ds) ds). unfold dft_tail. reflexivity.
Qed.

Lemma perm_even cm ds ds' : Permutation ds ds' -> even_dims_of cm ds -> even_dims_of cm ds'.
Proof.
  intros P (N & NE & E). split; [eapply Permutation_NoDup; eassumption|]. split.
  - intros ->. apply Permutation_sym, Permutation_nil in P. contradiction.
  - intros d I. apply E. eapply Permutation_in; [apply Permutation_sym, P|exact I].
Qed.
Lemma perm_free cm ds ds' : Permutation ds ds' -> free_names cm ds -> free_names cm ds'.
Proof. intros P F d I. apply F. eapply Permutation_in; [apply Permutation_sym, P|exact I]. Qed.

(** ** The data of the forward transform *)
Lemma tail_data {A} fftn rfftn (ifftn irfftn : option (list Z) -> list nat -> nd A -> nd A) scale unscale good (q : patch A) ds rn data : wf_patch q -> even_dims_of (p_cm q) ds ->
  (forall x, rn = Some x -> ds = removelast ds ++ [x]) ->
  fft_contract (nd_shape (p_data q)) good fftn rfftn ifftn irfftn scale unscale ->
  fftshift (nd_map (scale (k q ds)) (F fftn rfftn q ds rn)) (cax q ds rn) = Some data ->
  transform_data fftn rfftn scale (p_cm q) ds rn (p_data q) data.
Proof.
  intros WQ ED RN FC E. exists ds, (axes q ds), (map (fun d => r_step (rgf (p_cm q) d)) ds).
  split; [reflexivity|]. split; [exact RN|].
  assert (RKq : forall d, In d ds -> _) by (apply (RK q ds WQ ED)).
  split. { apply Forall2_map_in. intros d I. apply (RKq d I). }
  split. { apply Forall2_map_in. intros d I. exists (rgf (p_cm q) d). split; [apply (RKq d I)|reflexivity]. }
  fold (F fftn rfftn q ds rn). cbv zeta. fold (k q ds).
  destruct (F_fits fftn rfftn ifftn irfftn scale unscale good q ds rn WQ ED RN FC) as [WF SF].
  destruct (fftshift_ok (nd_map (scale (k q ds)) (F fftn rfftn q ds rn)) (cax q ds rn) (nd_map_wf _ _ WF)) as (b & Eb & Wb & Sb & _ & H).
  assert (b = data) by congruence. subst b. cbn [nd_map nd_shape] in Sb, H. split; [exact Sb|].
  intros ix B. destruct (H ix B) as (jx & G & J & K). exists jx. split; [exact J|]. split; [rewrite G, nd_map_get; reflexivity|].
  intros i d n x Nd Nn Nx. rewrite (K i n x Nn Nx). f_equal.
  replace (existsb (Nat.eqb i) (cax q ds rn)) with (mem d ds && negb (match rn with Some y => String.eqb d y | None => false end))%bool; [reflexivity|].
  assert (C : cax q ds rn = map (axf (p_cm q)) (filter (fun d => negb (match rn with Some y => String.eqb d y | None => false end)) ds)).
  { unfold cax, axes. destruct ED as (ND & _). clear - RN ND. destruct rn as [y|].
    - pose proof (RN y eq_refl) as L. assert (NY : ~ In y (removelast ds)).
      { rewrite L in ND. apply NoDup_remove_2 in ND. rewrite app_nil_r in ND. exact ND. }
      rewrite L at 1 2. rewrite filter_app, !map_app. cbn [map filter]. rewrite String.eqb_refl. cbn [negb map]. rewrite removelast_last, app_nil_r.
      f_equal. symmetry. rewrite (filter_ext_in _ (fun _ => true)).
      + clear. induction (removelast ds) as [|x t IH]; [reflexivity|]. cbn [filter]. rewrite IH. reflexivity.
      + intros d I. destruct (String.eqb_spec d y) as [->|]; [contradiction|reflexivity].
    - f_equal. rewrite (filter_ext _ (fun _ => true)) by reflexivity. clear. induction ds as [|x t IH]; [reflexivity|]. cbn [filter]. rewrite <- IH. reflexivity. }
  rewrite C. apply eq_true_iff_eq. rewrite andb_true_iff, mem_In', existsb_exists. split.
  - intros [I Q]. exists (axf (p_cm q) d). split; [apply in_map_iff; exists d; split; [reflexivity|apply filter_In; auto]|].
    apply Nat.eqb_eq. destruct (RKq d I) as (_ & X & _).
    apply (proj1 (NoDup_nth_error (cm_dims (p_cm q))) (wf_dims _ (wp_cm _ WQ))); [apply nth_error_Some; congruence|]. congruence.
  - intros (a & I & Q). apply Nat.eqb_eq in Q. subst a. apply in_map_iff in I. destruct I as (e & Q & I). apply filter_In in I. destruct I as [I Q'].
    destruct (RKq e I) as (_ & X & _). rewrite Q in X. assert (e = d) by congruence. subst e. auto.
Qed.

(** ** Names given to the inverse *)
Lemma asked_back_ok cm T ds rn orig dim : wf_cm cm -> even_dims_of cm ds -> free_names cm ds -> transformed cm T ds rn orig ->
  asked_back cm ds dim -> exists l', Permutation ds l' /\
  map (fun d => if mem d (cm_dims T) then d else ft_name d)
      (match dim with Some l => l | None => filter (str_prefix "ft_") (cm_dims T) end) = map ftn l'.
Proof.
  intros W (N & NE & E) FN TR AB.
  assert (NF : forall d, In d ds -> ~ In (ftn d) (cm_dims cm)).
  { intros d I J. destruct (wf_dim_coord cm _ W J) as (c & A & _). destruct (FN d I) as (_ & _ & _ & B & _). fold (ftn d) in B. congruence. }
  assert (FT : forall d, In d ds -> mem (ftn d) (cm_dims T) = true).
  { intros d I. apply mem_In'. rewrite (tr_dims _ _ _ _ _ TR). apply in_map_iff. exists d. rewrite (proj2 (mem_In' d ds) I). split; [reflexivity|apply E, I]. }
  assert (DT : forall d, In d ds -> mem d (cm_dims T) = false).
  { intros d I. apply mem_false. rewrite (tr_dims _ _ _ _ _ TR). intros J. apply in_map_iff in J. destruct J as (e & Q & J).
    destruct (mem e ds) eqn:M.
    - apply mem_In' in M. fold (ftn e) in Q. apply (NF e M). rewrite Q. apply E, I.
    - subst e. apply mem_false in M. contradiction. }
  unfold asked_back in AB. destruct dim as [l|].
  - destruct AB as (ds' & P & H). exists ds'. split; [exact P|].
    assert (IN : forall d, In d ds' -> In d ds) by (intros d; apply Permutation_in, Permutation_sym, P). clear P.
    induction H as [|d n ds' l Q H IH]; [reflexivity|]. cbn [map]. rewrite IH by (intros e J; apply IN; right; exact J). f_equal.
    pose proof (IN d (or_introl eq_refl)) as I. destruct Q as [->| ->].
    + rewrite (DT d I). apply ft_name_plain, (FN d I).
    + fold (ftn d). rewrite (FT d I). reflexivity.
  - exists (filter (fun d => mem d ds) (cm_dims cm)). split.
    + apply NoDup_Permutation; [exact N|apply NoDup_filter, (wf_dims _ W)|]. intros d. rewrite filter_In, mem_In'. split; [intros I; split; [apply E, I|exact I]|tauto].
    + assert (Q : filter (str_prefix "ft_") (cm_dims T) = map ftn (filter (fun d => mem d ds) (cm_dims cm))).
      { rewrite (tr_dims _ _ _ _ _ TR), filter_map_comm. rewrite (filter_ext_in _ (fun d => mem d ds)).
        - apply map_ext_in. intros d I. apply filter_In in I. destruct I as [_ ->]. reflexivity.
        - intros d I. destruct (mem d ds); [reflexivity|]. apply AB, I. }
      rewrite Q, map_map. apply map_ext_in. intros d I. apply filter_In in I. destruct I as [_ I]. apply mem_In' in I. rewrite (FT d I). reflexivity.
Qed.

(** ** Without padding *)
Lemma dft_unpadded {A} (zero : A) fast fftn rfftn ifftn irfftn scale unscale good p b dim real ds : wf_patch p -> all_settled (p_cm p) ->
  asked_dims (p_cm p) dim = ds -> even_dims_of (p_cm p) ds -> free_names (p_cm p) ds ->
  fft_contract (nd_shape (p_data p)) good fftn rfftn ifftn irfftn scale unscale ->
  exists t, dft zero fast fftn rfftn scale (mkF p b) dim real false = Ok (mkF t false) /\ wf_patch t /\
    transformed (p_cm p) (p_cm t) ds (real_dim real ds) None /\
    transform_data fftn rfftn scale (p_cm p) ds (real_dim real ds) (p_data p) (p_data t) /\
    ((real_dim real ds <> None -> Forall good (nd_flat (p_data p))) -> told (p_cm p) ds (real_dim real ds) r_len ->
     forall names, asked_back (p_cm p) ds names ->
     exists r, idft ifftn irfftn unscale (mkF t false) names = Ok (mkF r false) /\ wf_patch r /\ p_data r = p_data p /\ restored (p_cm p) (p_cm r) ds).
Proof.
  intros WP ST QD ED FN FC. rewrite (dft_front zero fast fftn rfftn scale (mkF p b) dim real false ds (wp_cm _ WP) QD ED). cbn [bind f_patch].
  set (rn := real_dim real ds). destruct (order_ok rn ds (proj1 ED) (real_dim_in real ds)) as (PO & NO & LO). set (o := dft_order rn ds) in *.
  pose proof (perm_even _ _ _ PO ED) as EDo. pose proof (perm_free _ _ _ PO FN) as FNo.
  destruct (dft_tail_ok fftn rfftn ifftn irfftn scale unscale good p o rn None (fun _ => mkRange KInt 0 0 0 0) false WP ST EDo FNo LO) as (T & data & ET & TR & WT & SD & ES).
  { discriminate. } { exact FC. }
  rewrite ET. exists (mkPatch T data). split; [reflexivity|]. split; [exact WT|]. cbn [p_cm p_data].
  pose proof (Permutation_sym PO) as PO'.
  split; [eapply transformed_perm; [exact PO'|exact TR]|]. split.
  { destruct (tail_data fftn rfftn ifftn irfftn scale unscale good p o rn data WP EDo LO FC ES) as (o' & ax & st & P1 & P2 & P3 & P4 & P5 & P6).
    exists o', ax, st. split; [eapply Permutation_trans; eassumption|]. split; [exact P2|]. split; [exact P3|]. split; [exact P4|].
    split; [exact P5|]. intros ix B. destruct (P6 ix B) as (jx & J1 & J2 & J3). exists jx. split; [exact J1|]. split; [exact J2|].
    intros i d n x A1 A2 A3. rewrite (J3 i d n x A1 A2 A3). replace (mem d o) with (mem d ds); [reflexivity|].
    apply eq_true_iff_eq. rewrite !mem_In'. split; apply Permutation_in; assumption. }
  intros GD TL names AB.
  destruct (asked_back_ok _ _ _ _ _ _ (wp_cm _ WP) ED FN (transformed_perm _ _ _ _ _ _ PO' TR) AB) as (l' & PL & EL).
  destruct (idft_core fftn rfftn ifftn irfftn scale unscale good p o rn None (fun _ => mkRange KInt 0 0 0 0) false WP ST EDo FNo LO) with (T := T) (data := data) (l' := l') (dim := names) as (R & RS & WR & E).
  - discriminate.
  - exact FC.
  - exact GD.
  - intros d I. apply (Permutation_in _ PO') in I. apply (TL d); [exact I|]. apply (RK p ds WP ED d I).
  - reflexivity.
  - exact TR.
  - exact SD.
  - exact ES.
  - eapply Permutation_trans; eassumption.
  - exact EL.
  - exists (mkPatch R (p_data p)). unfold trims_of, trims in E. split; [exact E|]. split; [exact WR|]. split; [reflexivity|].
    eapply restored_perm; [exact PO'|exact RS].
Qed.
