(** Lemmas behind FourierProps.v: transforming a patch and going back. *)
From Verif Require Import Base BaseFacts CoordModel CoordSpec CoordProofs NdModel NdSpec NdProofs NdProofs2
  FrameModel FrameProofs FrameProofs5 ChunkModel CmModel CmSpec CmProofs CmProofs2 CmProofs3 CmProofs12 CmProofs13 CmProofs14
  ProcModel ProcSpec ProcProofs2 FourierModel FourierSpec FourierProofs FourierProofs2 FourierProofs3 FourierProofs4.
From Coq Require Import Strings.String Strings.Ascii ZifyBool Sorting.Permutation.
Ltac Zify.zify_post_hook ::= Z.div_mod_to_equations.
Local Open Scope Z_scope.
Local Open Scope list_scope.

(** ** Canonical axis and range of a dimension *)
Definition axf (cm : cman) (d : string) : nat := match index_of d (cm_dims cm) with Some i => i | None => O end.
Definition rgf (cm : cman) (d : string) : crange :=
  match assoc d (cm_coords cm) with Some (M1 (CRange r)) => r | _ => mkRange KInt 0 0 0 0 end.
Definition ranged (cm : cman) (d : string) : Prop := In d (cm_dims cm) /\ exists r, assoc d (cm_coords cm) = Some (M1 (CRange r)).

Lemma ranged_ok cm d : wf_cm cm -> ranged cm d ->
  axis_of cm d = Ok (axf cm d) /\ nth_error (cm_dims cm) (axf cm d) = Some d /\
  assoc d (cm_coords cm) = Some (M1 (CRange (rgf cm d))) /\ wf_range (rgf cm d) /\
  even_dim cm d = Ok (d, axf cm d, rgf cm d).
Proof.
  intros W [J (r & R)]. destruct (index_of_some d (cm_dims cm) J) as (i & E & N).
  unfold even_dim, axis_of, axf, rgf. rewrite R, E. cbn [bind]. repeat (split; [reflexivity || exact N|]).
  split; [apply (wf_vals _ W _ _ R)|reflexivity].
Qed.
Lemma even_list cm l : wf_cm cm -> (forall d, In d l -> ranged cm d) ->
  map_result (even_dim cm) l = Ok (map (fun d => (d, axf cm d, rgf cm d)) l).
Proof. intros W H. apply map_result_map. intros d I. apply (ranged_ok cm d W (H d I)). Qed.

(** ** Moving one name to the end *)
Lemma to_end_ok x l : NoDup l -> In x l ->
  Permutation l (to_end x l) /\ to_end x l = removelast (to_end x l) ++ [x] /\ NoDup (to_end x l) /\
  to_end x l = filter (fun d => negb (String.eqb d x)) l ++ [x].
Proof.
  intros N I. assert (E : to_end x l = filter (fun d => negb (String.eqb d x)) l ++ [x]).
  { unfold to_end. rewrite remove_one_spec by exact N. rewrite (proj2 (mem_In' x l) I). reflexivity. }
  assert (P : Permutation l (to_end x l)).
  { rewrite E. clear E. induction N as [|y t H N IH]; [destruct I|]. cbn [filter]. destruct (String.eqb_spec y x) as [Q|Q]; cbn [negb].
    - subst y. assert (filter (fun d => negb (String.eqb d x)) t = t) as ->.
      { clear - H. induction t as [|z t IH]; [reflexivity|]. cbn [filter]. destruct (String.eqb_spec z x) as [->|_]; [destruct H; left; reflexivity|].
        cbn [negb]. rewrite IH; [reflexivity|]. intros J. apply H. right. exact J. }
      apply Permutation_cons_append.
    - destruct I as [I|I]; [congruence|]. cbn [app]. constructor. apply IH, I. }
  split; [exact P|]. split; [rewrite E, removelast_last; reflexivity|]. split; [eapply Permutation_NoDup; eassumption|exact E].
Qed.

(** ** Mapping over an array *)
Section Map.
Context {A : Type}.
Lemma nd_map_wf (f : A -> A) a : wf_nd a -> wf_nd (nd_map f a).
Proof. intros [P Q]. split; [exact P|]. unfold nd_map. cbn [nd_flat nd_shape]. rewrite zlen_map. exact Q. Qed.
Lemma nd_map_get (f : A -> A) a ix : nd_get (nd_map f a) ix = option_map f (nd_get a ix).
Proof. unfold nd_get, nd_map. cbn [nd_flat nd_shape]. destruct (ravel (nd_shape a) ix); [apply znth_map|reflexivity]. Qed.
Lemma nd_map_id (f g : A -> A) a : (forall x, g (f x) = x) -> nd_map g (nd_map f a) = a.
Proof.
  intros H. unfold nd_map. cbn [nd_flat nd_shape]. rewrite map_map. destruct a as [s l]. cbn [nd_shape nd_flat]. f_equal.
  rewrite <- (map_id l) at 2. apply map_ext. exact H.
Qed.
Lemma nd_map_roll (f : A -> A) a b k : wf_nd a -> List.length k = List.length (nd_shape a) -> nd_roll a k = Some b ->
  nd_roll (nd_map f a) k = Some (nd_map f b).
Proof.
  intros W L E. destruct (nd_roll_ok a k W L) as (b' & E' & Wb & Sb & Gb). assert (b' = b) by congruence. subst b'.
  destruct (nd_roll_ok (nd_map f a) k (nd_map_wf f a W) L) as (c & Ec & Wc & Sc & Gc). rewrite Ec. f_equal.
  apply nd_ext; [exact Wc|apply nd_map_wf, Wb|cbn [nd_map nd_shape] in *; congruence|].
  intros ix B. rewrite Sc in B. rewrite (Gc ix B). cbn [nd_map nd_shape] in *. rewrite !nd_map_get. rewrite (Gb ix B). reflexivity.
Qed.
End Map.

Lemma prod_perm a b : Permutation a b -> prod a = prod b.
Proof. induction 1; unfold prod in *; cbn [fold_right] in *; lia. Qed.
Lemma prod_nz l : Forall (fun x => x <> 0) l -> prod l <> 0.
Proof. induction 1; unfold prod in *; cbn [fold_right]; nia. Qed.

Lemma transformed_perm cm T ds ds' rn o : Permutation ds ds' -> transformed cm T ds rn o -> transformed cm T ds' rn o.
Proof.
  intros P H. assert (I : forall d, In d ds' <-> In d ds) by (intros d; split; apply Permutation_in; [apply Permutation_sym|]; exact P).
  assert (M : forall d, mem d ds' = mem d ds) by (intros d; apply eq_true_iff_eq; rewrite !mem_In'; apply I).
  assert (AL : forall n, along cm ds' n <-> along cm ds n).
  { intros n. unfold along. rewrite I. split; intros (X & d & Y & Z); (split; [exact X|]); exists d; (split; [exact Y|]); apply I; exact Z. }
  destruct H as [A B C D E F K]. constructor; auto.
  - rewrite B. apply map_ext. intros d. rewrite M. reflexivity.
  - intros d r J. apply C, I, J.
  - intros d J. apply D, I, J.
  - intros x d Q J. apply (E x d Q), I, J.
  - intros n J. apply F, AL, J.
  - intros n J1 J2 J3. apply K; [intros X; apply J1, I, X|intros X; apply J2, AL, X|intros d J; apply J3, I, J].
Qed.
Lemma restored_perm cm T ds ds' : Permutation ds ds' -> restored cm T ds -> restored cm T ds'.
Proof.
  intros P [A B C D]. assert (I : forall d, In d ds' <-> In d ds) by (intros d; split; apply Permutation_in; [apply Permutation_sym|]; exact P).
  assert (AL : forall n, along cm ds' n <-> along cm ds n).
  { intros n. unfold along. rewrite I. split; intros (X & d & Y & Z); (split; [exact X|]); exists d; (split; [exact Y|]); apply I; exact Z. }
  constructor; auto; intros n J; [apply C|apply D]; rewrite <- AL; exact J.
Qed.

Lemma Forall2_nth {X Y} (R : X -> Y -> Prop) a b i x : Forall2 R a b -> nth_error a i = Some x -> exists y, nth_error b i = Some y /\ R x y.
Proof. intros F. revert i. induction F as [|u v a b H F IH]; intros [|i] E; try discriminate; cbn [nth_error] in *; [|apply IH, E]. injection E as <-. eauto. Qed.
Lemma Forall2_map_l {X Y Z'} (R : Z' -> Y -> Prop) (h : X -> Z') a b : Forall2 (fun x y => R (h x) y) a b -> Forall2 R (map h a) b.
Proof. induction 1; cbn [map]; constructor; auto. Qed.
Lemma Forall2_imp_in {X Y} (R R' : X -> Y -> Prop) a b : Forall2 R a b -> (forall x y, In x a -> R x y -> R' x y) -> Forall2 R' a b.
Proof. induction 1; intros K; constructor; [apply K; [left; reflexivity|assumption]|apply IHForall2; intros; apply K; [right|]; assumption]. Qed.

Section Core.
Context {A : Type}.
Variables (fftn rfftn : list nat -> nd A -> nd A) (ifftn irfftn : option (list Z) -> list nat -> nd A -> nd A)
  (scale unscale : Z -> A -> A) (good : A -> Prop).
Variables (q : patch A) (ds : list string) (rn : option string) (orig : option cman) (ou : string -> crange) (pad : bool).
Let cm := p_cm q.
Let S := nd_shape (p_data q).
Hypothesis WQ : wf_patch q.
Hypothesis ST : all_settled cm.
Hypothesis ED : even_dims_of cm ds.
Hypothesis FN : free_names cm ds.
Hypothesis RN : forall x, rn = Some x -> ds = removelast ds ++ [x].
Hypothesis OR : forall o d, orig = Some o -> In d ds -> assoc d (cm_coords o) = Some (M1 (CRange (ou d))) /\ wf_range (ou d).
Hypothesis FC : fft_contract S good fftn rfftn ifftn irfftn scale unscale.

Lemma W : wf_cm cm.
Proof. apply (wp_cm _ WQ). Qed.
Lemma RG d : In d ds -> ranged cm d.
Proof. intros I. apply ED, I. Qed.
Lemma RK d : In d ds -> axis_of cm d = Ok (axf cm d) /\ nth_error (cm_dims cm) (axf cm d) = Some d /\
  assoc d (cm_coords cm) = Some (M1 (CRange (rgf cm d))) /\ wf_range (rgf cm d).
Proof. intros I. destruct (ranged_ok cm d W (RG d I)) as (a & b & c & e & _). auto. Qed.
Lemma SZ d : In d ds -> nth_error S (axf cm d) = Some (r_len (rgf cm d)).
Proof.
  intros I. destruct (RK d I) as (_ & N & R & _). destruct (Forall2_nth _ _ _ _ _ (wp_shape _ WQ) N) as (y & E & c & Q & L).
  fold S in E. rewrite E. fold cm in Q. f_equal. assert (c = CRange (rgf cm d)) by congruence. subst c. exact (eq_sym L).
Qed.
Lemma AX l : (forall d, In d l -> In d ds) -> NoDup l -> axes_of S (map (axf cm) l).
Proof.
  intros I N. split.
  - destruct (rename_at_map ft_name (axf cm) cm l W N) as [_ X]; [|exact X]. intros d J. destruct (RK d (I d J)) as (a & b & _). split; [eapply nth_error_In, b|exact a].
  - intros ax J. apply in_map_iff in J. destruct J as (d & <- & J). apply nth_error_Some. rewrite (SZ d (I d J)). discriminate.
Qed.
Definition isreal (d : string) : bool := match rn with Some x => String.eqb d x | None => false end.
Definition S' : list Z := match rn with Some x => put S (axf cm x) (r_len (rgf cm x) / 2 + 1) | None => S end.
Definition axes : list nat := map (axf cm) ds.
Definition F : nd A := (match rn with Some _ => rfftn | None => fftn end) axes (p_data q).
Definition cax : list nat := match rn with Some _ => removelast axes | None => axes end.
Definition k : Z := prod (map (fun d => r_step (rgf cm d)) ds).
Lemma x_in x : rn = Some x -> In x ds.
Proof. intros Q. rewrite (RN x Q). apply in_or_app. right. left. reflexivity. Qed.
Lemma F_fits : fits S' F.
Proof.
  destruct ED as (N & _). assert (AO := AX ds (fun d I => I) N). fold axes in AO. pose proof x_in as XI. pose proof SZ as SZ'. pose proof RN as RN'.
  unfold F, S'. clear RN. revert XI RN'. generalize FC as FC'. intros FC' XI RN'. destruct rn as [x|] eqn:Q.
  - pose proof (RN' x eq_refl) as L. assert (AE : axes = map (axf cm) (removelast ds) ++ [axf cm x]) by (unfold axes; rewrite L at 1; rewrite map_app; reflexivity).
    pose proof (SZ' x (XI x eq_refl)) as Z'. rewrite AE in *.
    replace (r_len (rgf cm x)) with (nth (axf cm x) S 0) by (apply (nth_error_nth _ _ 0 Z')).
    apply (fc_rfft _ _ _ _ _ _ _ _ FC); [split; [apply (wp_nd _ WQ)|reflexivity]|exact AO].
  - apply (fc_fft _ _ _ _ _ _ _ _ FC); [split; [apply (wp_nd _ WQ)|reflexivity]|exact AO].
Qed.
Lemma zlen_bins n s b : 1 <= n -> zlen (bins n s b) = if b then n / 2 + 1 else n.
Proof. intros L. unfold bins. destruct b; rewrite zlen_map, zlen_zrange; lia. Qed.
Lemma T_len T : transformed cm T ds rn orig -> Forall2 (dim_len T) (cm_dims T) S'.
Proof.
  intros TR. pose proof x_in as XI. rewrite (tr_dims _ _ _ _ _ TR). apply Forall2_map_l.
  assert (L : forall d n, In d (cm_dims cm) -> dim_len cm d n -> dim_len T (if mem d ds then ("ft_" ++ d)%string else d) (if isreal d then n / 2 + 1 else n)).
  { intros d n I (c & Qc & Lc). destruct (mem d ds) eqn:Q.
    - apply mem_In' in Q. destruct (RK d Q) as (_ & _ & R & Wr). destruct (tr_ft _ _ _ _ _ TR d _ Q R) as (f & Ef & Wf & V).
      exists (CRange f). split; [exact Ef|]. assert (c = CRange (rgf cm d)) by congruence. subst c. cbn [c_len] in *.
      rewrite <- (zlen_r_values f Wf), V. fold (isreal d). rewrite zlen_bins by (destruct Wr as (_ & ? & _); assumption). rewrite Lc. reflexivity.
    - apply mem_false in Q. destruct (wf_dim_coord cm d W I) as (c' & Ac & _ & Dc).
      destruct (tr_rest _ _ _ _ _ TR d Q) as [E _].
      + intros (_ & e & X & Y). unfold dims_of in X. rewrite Dc in X. destruct X as [<-|[]]. contradiction.
      + intros e J. destruct (FN e J) as (_ & _ & _ & A1 & A2). split; [intros ->; congruence|intros _ ->; congruence].
      + exists c. rewrite E. split; [exact Qc|]. assert (isreal d = false) as ->; [|exact Lc].
        unfold isreal. destruct rn as [x|] eqn:Qx; [|reflexivity]. destruct (String.eqb_spec d x) as [->|]; [|reflexivity]. destruct Q. apply XI. reflexivity. }
  unfold S'. destruct rn as [x|] eqn:Qx.
  - assert (Ix : In x ds) by (apply XI; reflexivity). destruct (RK x Ix) as (_ & Nx & R & _).
    eapply (put_Forall2 (dim_len cm)); [apply (wp_shape _ WQ)|apply (wf_dims _ W)|exact Nx| |].
    + pose proof (L x (r_len (rgf cm x)) (nth_error_In _ _ Nx)) as X. unfold isreal in X. rewrite Qx, String.eqb_refl in X. apply X.
      exists (CRange (rgf cm x)). auto.
    + intros d n I NE H. pose proof (L d n I H) as X. unfold isreal in X. rewrite Qx in X. destruct (String.eqb_spec d x); [contradiction|exact X].
  - eapply Forall2_imp_in; [apply (wp_shape _ WQ)|]. intros d n I H. pose proof (L d n I H) as X. unfold isreal in X. rewrite Qx in X. exact X.
Qed.

(** ** The forward transform after padding *)
Definition dft_tail : result (fpatch A) :=
  do rs <- map_result (even_dim cm) ds;
  let axes := map (fun x => snd (fst x)) rs in
  do cm' <- dft_coords cm rs rn orig;
  let func := match rn with Some _ => rfftn | None => fftn end in
  let data := nd_map (scale (prod (map (fun x => r_step (snd x)) rs))) (func axes (p_data q)) in
  match fftshift data (match rn with Some _ => removelast axes | None => axes end) with
  | None => Err IndexError
  | Some data => do out <- new_patch cm' data; Ok (mkF out pad)
  end.

Lemma dft_tail_ok : exists T data, dft_tail = Ok (mkF (mkPatch T data) pad) /\ transformed cm T ds rn orig /\
  wf_patch (mkPatch T data) /\ nd_shape data = S' /\ fftshift (nd_map (scale k) F) cax = Some data.
Proof.
  unfold dft_tail. rewrite (even_list cm ds W RG). cbn [bind]. cbv zeta. rewrite !map_map. cbn [fst snd].
  destruct (dft_coords_ok cm ds rn orig W ST (proj1 ED) FN (axf cm) (rgf cm) RK) as (T & ET & TR).
  { intros o d Q I. destruct (OR o d Q I) as [E Wr]. exists (M1 (CRange (ou d))). split; [exact E|]. split; [reflexivity|exact Wr]. }
  rewrite ET. cbn [bind]. change (map (fun x => axf cm x) ds) with axes. fold F. fold cax. fold k.
  destruct F_fits as [WF SF].
  destruct (fftshift_ok (nd_map (scale k) F) cax (nd_map_wf _ _ WF)) as (data & E & Wd & Sd & _). rewrite E.
  cbn [nd_map nd_shape] in Sd. rewrite SF in Sd.
  destruct (new_patch_ok T data (tr_wf _ _ _ _ _ TR) Wd) as [EN WN].
  { rewrite (tr_dims _ _ _ _ _ TR). pose proof (wp_some _ WQ) as X. fold cm in X. destruct (cm_dims cm); [contradiction|discriminate]. }
  { rewrite Sd. apply T_len, TR. }
  rewrite EN. cbn [bind]. exists T, data. auto.
Qed.

(** ** And back *)
Hypothesis GD : rn <> None -> Forall good (nd_flat (p_data q)).
Hypothesis TL : forall d, In d ds -> tells (rgf cm d) (r_len (rgf cm d)) (isreal d).
Hypothesis QP : pad = match orig with Some _ => true | None => false end.
Variables (T : cman) (data : nd A).
Hypothesis TR : transformed cm T ds rn orig.
Hypothesis SD : nd_shape data = S'.
Hypothesis ES : fftshift (nd_map (scale k) F) cax = Some data.

Lemma T_ranged d : In d ds -> ranged T (ftn d) /\ wf_range (rgf T (ftn d)) /\
  r_values (rgf T (ftn d)) = bins (r_len (rgf cm d)) (r_step (rgf cm d)) (isreal d) /\ axf T (ftn d) = axf cm d.
Proof.
  intros I. destruct (RK d I) as (_ & N & R & Wr). destruct (tr_ft _ _ _ _ _ TR d _ I R) as (f & Ef & Wf & V). fold (ftn d) in Ef.
  assert (NT : nth_error (cm_dims T) (axf cm d) = Some (ftn d)).
  { rewrite (tr_dims _ _ _ _ _ TR), nth_error_map, N. cbn [option_map]. rewrite (proj2 (mem_In' d ds) I). reflexivity. }
  split; [split; [eapply nth_error_In, NT|eauto]|]. unfold rgf at 1 2. rewrite Ef. split; [exact Wf|]. split; [exact V|].
  unfold axf at 1. rewrite (index_of_nth _ _ _ (wf_dims _ (tr_wf _ _ _ _ _ TR)) NT). reflexivity.
Qed.
Lemma zero_first d : In d ds -> (r_min (rgf T (ftn d)) =? 0) = isreal d.
Proof.
  intros I. destruct (T_ranged d I) as (_ & Wf & V & _). pose proof (r_min_least _ Wf) as [M1' M2]. rewrite V in M1', M2.
  destruct (RK d I) as (_ & _ & _ & (Sn & Ln & _)). pose proof (TL d I) as TD. unfold tells in TD. unfold bins in *.
  destruct (isreal d).
  - apply Z.eqb_eq. apply in_map_iff in M1'. destruct M1' as (i & E & J). apply in_zrange in J.
    assert (r_min (rgf T (ftn d)) <= 0). { apply M2. apply in_map_iff. exists 0. split; [lia|]. apply in_zrange. lia. }
    destruct TD as [P|P]; [nia|]. assert (i = 0) by (rewrite P in J; lia). subst i. lia.
  - apply Z.eqb_neq. intros Z0. rewrite Z0 in M2. set (n := r_len (rgf cm d)) in *.
    destruct (Z.ltb_spec 0 (r_step (rgf cm d))) as [P|P].
    + assert (N2 : 2 <= n) by lia. specialize (M2 (Z.sgn (r_step (rgf cm d)) * freq n (shifted_bin n 0))).
      assert (0 <= Z.sgn (r_step (rgf cm d)) * freq n (shifted_bin n 0)) as X.
      { apply M2. apply in_map_iff. exists 0. split; [reflexivity|]. apply in_zrange. lia. }
      unfold freq, shifted_bin in X. replace ((0 - n / 2) mod n) with (n - n / 2) in X.
      * destruct (Z.ltb_spec (2 * (n - n / 2)) n); lia.
      * apply (Z.mod_unique_pos _ _ (-1)); lia.
    + assert (N2 : 3 <= n) by lia. specialize (M2 (Z.sgn (r_step (rgf cm d)) * freq n (shifted_bin n (n - 1)))).
      assert (0 <= Z.sgn (r_step (rgf cm d)) * freq n (shifted_bin n (n - 1))) as X.
      { apply M2. apply in_map_iff. exists (n - 1). split; [reflexivity|]. apply in_zrange. lia. }
      unfold freq, shifted_bin in X. rewrite Z.mod_small in X by lia. destruct (Z.ltb_spec (2 * (n - 1 - n / 2)) n); lia.
Qed.

Lemma filter_map_comm {X Y} (f : X -> Y) p l : filter p (map f l) = map f (filter (fun x => p (f x)) l).
Proof. induction l as [|x l IH]; [reflexivity|]. cbn [map filter]. destruct (p (f x)); cbn [map]; rewrite IH; reflexivity. Qed.
Lemma no_dup_has l : NoDup l -> has_dup l = false.
Proof. induction 1 as [|x l N ND IH]; [reflexivity|]. cbn [has_dup]. rewrite IH, (proj2 (mem_false x l) N). reflexivity. Qed.
Lemma filter_one x l : NoDup l -> In x l -> filter (fun d => String.eqb d x) l = [x].
Proof.
  intros N I. induction N as [|y t H N IH]; [destruct I|]. cbn [filter]. destruct (String.eqb_spec y x) as [Q|Q].
  - subst y. f_equal. clear - H. induction t as [|z t IH]; [reflexivity|]. cbn [filter].
    destruct (String.eqb_spec z x) as [->|_]; [destruct H; left; reflexivity|]. apply IH. intros J. apply H. right. exact J.
  - apply IH. destruct I; [contradiction|assumption].
Qed.
Lemma to_end_ft x l : NoDup l -> In x l -> to_end (ftn x) (map ftn l) = map ftn (to_end x l).
Proof.
  intros N I. assert (N' : NoDup (map ftn l)).
  { clear - N. induction N as [|y t H N IH]; cbn [map]; constructor; [|exact IH]. intros J. apply in_map_iff in J.
    destruct J as (z & E & J). apply ftn_inj in E. congruence. }
  destruct (to_end_ok x l N I) as (_ & _ & _ & ->). destruct (to_end_ok (ftn x) (map ftn l) N' (in_map ftn _ _ I)) as (_ & _ & _ & ->).
  rewrite filter_map_comm, map_app. cbn [map]. apply (f_equal (fun u => map ftn u ++ [ftn x])). apply filter_ext. intros d.
  destruct (String.eqb_spec (ftn d) (ftn x)) as [E|E]; destruct (String.eqb_spec d x) as [E'|E']; try reflexivity.
  - apply ftn_inj in E. contradiction.
  - subst d. contradiction.
Qed.

Definition back_order (l' : list string) : list string := match rn with Some x => to_end x l' | None => l' end.
Definition trims_of : list string -> list (string * selarg) := trims (rgf cm) ou pad.
Lemma back_perm l' : Permutation ds l' -> Permutation ds (back_order l') /\ NoDup (back_order l') /\
  (forall x, rn = Some x -> back_order l' = removelast (back_order l') ++ [x]) /\
  (forall x, rn = Some x -> Permutation (removelast ds) (removelast (back_order l'))).
Proof.
  intros P. pose proof (Permutation_NoDup P (proj1 ED)) as N. pose proof x_in as XI. pose proof RN as RN'. unfold back_order. clear RN.
  destruct rn as [x|].
  - assert (I : In x l') by (eapply Permutation_in; [exact P|apply XI; reflexivity]).
    destruct (to_end_ok x l' N I) as (P1 & P2 & P3 & _). assert (P4 : Permutation ds (to_end x l')) by (eapply Permutation_trans; eassumption).
    split; [exact P4|]. split; [exact P3|]. split.
    + intros y Q. assert (y = x) by congruence. subst y. exact P2.
    + intros y Q. rewrite P2, (RN' x eq_refl) in P4. apply Permutation_app_inv_r in P4. exact P4.
  - split; [exact P|]. split; [exact N|]. split; intros x Q; discriminate.
Qed.
Lemma restored_len R : restored cm R ds -> Forall2 (dim_len R) (cm_dims R) S.
Proof.
  intros RS. rewrite (rs_dims _ _ _ RS). eapply Forall2_imp_in; [apply (wp_shape _ WQ)|]. intros d n I (c & Q & L). exists c. split; [|exact L].
  destruct (rs_rest _ _ _ RS d) as [E _]; [|rewrite E; exact Q]. intros (N & e & X & Y). destruct (wf_dim_coord cm d W I) as (c' & _ & _ & Dc).
  unfold dims_of in X. rewrite Dc in X. destruct X as [<-|[]]. contradiction.
Qed.

Lemma idft_core l' dim : Permutation ds l' ->
  map (fun d => if mem d (cm_dims T) then d else ft_name d)
      (match dim with Some l => l | None => filter (str_prefix "ft_") (cm_dims T) end) = map ftn l' ->
  exists R, restored cm R ds /\ wf_patch (mkPatch R (p_data q)) /\
    idft ifftn irfftn unscale (mkF (mkPatch T data) pad) dim =
    match trims_of (back_order l') with
    | [] => Ok (mkF (mkPatch R (p_data q)) false)
    | t => do out <- pt_select (mkPatch R (p_data q)) false true t; Ok (mkF out false)
    end.
Proof.
  intros P HN. destruct (back_perm l' P) as (PB & NB & LB & RB). set (l := back_order l') in *.
  pose proof (Permutation_NoDup P (proj1 ED)) as N'.
  assert (I1 : forall d, In d l' -> In d ds) by (intros d; apply Permutation_in, Permutation_sym, P).
  assert (I2 : forall d, In d l -> In d ds) by (intros d; apply Permutation_in, Permutation_sym, PB).
  assert (I3 : forall d, In d ds -> In d l) by (intros d; apply Permutation_in, PB).
  pose proof (tr_wf _ _ _ _ _ TR) as WTc.
  unfold idft. cbn [f_patch p_cm p_data f_padded]. rewrite HN. clear HN.
  assert (forallb (fun d => mem d (cm_dims T)) (map ftn l') = true) as ->.
  { apply forallb_forall. intros n J. apply in_map_iff in J. destruct J as (d & <- & J). apply mem_In'. apply (T_ranged d (I1 d J)). }
  cbn [negb]. rewrite no_dup_has.
  2: { clear - N'. induction N' as [|y t H N IH]; cbn [map]; constructor; [|exact IH]. intros J. apply in_map_iff in J.
       destruct J as (z & E & J). apply ftn_inj in E. congruence. }
  assert (RT : forall k, (forall d, In d k -> In d ds) -> forall n, In n (map ftn k) -> ranged T n).
  { intros j J n Jn. apply in_map_iff in Jn. destruct Jn as (d & <- & Jd). apply (T_ranged d (J d Jd)). }
  rewrite (even_list T (map ftn l') WTc (RT l' I1)). cbn [bind]. cbv zeta.
  assert (ZE : filter (fun x : string * nat * crange => r_min (snd x) =? 0) (map (fun d => (d, axf T d, rgf T d)) (map ftn l')) =
     match rn with Some x => [(ftn x, axf T (ftn x), rgf T (ftn x))] | None => [] end).
  { rewrite map_map, filter_map_comm. cbn [snd]. rewrite (filter_ext_in _ isreal l') by (intros d J; apply zero_first, I1, J).
    pose proof x_in as XI. unfold isreal. clear - XI N' P. destruct rn as [x|].
    - rewrite filter_one; [reflexivity|exact N'|eapply Permutation_in; [exact P|apply XI; reflexivity]].
    - clear. induction l'; [reflexivity|assumption]. }
  rewrite ZE.
  assert (DE : match (match rn with Some x => [(ftn x, axf T (ftn x), rgf T (ftn x))] | None => [] end) with
     | [] => Ok (map ftn l') | [x] => Ok (to_end (fst (fst x)) (map ftn l')) | _ => Err AssertionError end = Ok (map ftn l)).
  { pose proof x_in as XI. unfold l, back_order. clear - XI N' P. destruct rn as [x|]; [|reflexivity]. cbn [fst]. rewrite to_end_ft; [reflexivity|exact N'|].
    eapply Permutation_in; [exact P|apply XI; reflexivity]. }
  rewrite DE. cbn [bind]. clear DE.
  rewrite (even_list T (map ftn l) WTc (RT l I2)). cbn [bind].
  set (real := match (match rn with Some x => [(ftn x, axf T (ftn x), rgf T (ftn x))] | None => [] end) with [] => false | _ => true end).
  assert (QR : real = match rn with Some _ => true | None => false end) by (unfold real; destruct rn; reflexivity).
  clearbody real.
  rewrite !map_map. cbn [fst snd].
  destruct (idft_coords_ok cm T ds l rn orig W ST (proj1 ED) FN (rgf cm) ou) with (real := real) (sh := nd_shape data) (g := axf T) (rf := rgf T) (padded := pad) as (R & ER & RS).
  - intros d I. destruct (RK d I) as (_ & a & b & c). split; [eapply nth_error_In, a|auto].
  - intros o d Q I. apply (OR o d Q I).
  - exact TR.
  - exact PB.
  - intros d I. destruct (T_ranged d I) as (X & _). apply (ranged_ok T (ftn d) WTc X).
  - intros d I. destruct (T_ranged d I) as (_ & _ & _ & ->). rewrite SD. unfold S'.
    pose proof (SZ d I) as SZd. pose proof x_in as XI.
    assert (AI : forall x, In x ds -> axf cm x = axf cm d -> x = d).
    { intros x Ix Q. destruct (RK x Ix) as (_ & a & _). destruct (RK d I) as (_ & b & _). congruence. }
    clear - SZd XI LB QR AI. destruct rn as [x|]; [|left; exact SZd].
    destruct (Nat.eq_dec (axf cm x) (axf cm d)) as [Q|Q].
    + right. split; [exact QR|]. rewrite <- (AI x (XI x eq_refl) Q). apply LB. reflexivity.
    + left. rewrite nth_put_other by exact Q. exact SZd.
  - exact QP.
  - match goal with |- context [idft_coords T pad (nd_shape data) ?X real] => change X with (map (fun d => (ftn d, axf T (ftn d), rgf T (ftn d))) l) end.
    rewrite ER. cbn [bind].
    assert (AXE : map (fun x => axf T (ftn x)) l = map (axf cm) l).
    { apply map_ext_in. intros d J. apply (T_ranged d (I2 d J)). }
    match goal with |- context [map_result ?f (map ftn l)] => rewrite (map_result_map f (fun n => r_step (rgf cm (ift_name n)))) end.
    2: { intros n J. apply in_map_iff in J. destruct J as (d & <- & J). rewrite ift_name_ft.
         destruct (rs_rest _ _ _ RS d) as [E _]; [intros (X & _); apply X, I2, J|]. rewrite E. destruct (RK d (I2 d J)) as (_ & _ & -> & _). reflexivity. }
    cbn [bind]. rewrite map_map. change (map (fun x => r_step (rgf cm (ift_name (ftn x)))) l) with (map (fun x => r_step (rgf cm x)) l).
    assert (PK : prod (map (fun x => r_step (rgf cm x)) l) = k).
    { unfold k. apply prod_perm. apply Permutation_map, Permutation_sym, PB. }
    rewrite PK. clear PK.
    assert (KN : k <> 0).
    { unfold k. apply prod_nz. apply Forall_forall. intros y J. apply in_map_iff in J. destruct J as (d & <- & J). destruct (RK d J) as (_ & _ & _ & (Z' & _)). exact Z'. }
    change (map (fun x => axf T (ftn x)) l) with (map (fun x => axf T (ftn x)) l). rewrite AXE.
    assert (CX : forall i, In i cax <-> In i (if real then removelast (map (axf cm) l) else map (axf cm) l)).
    { assert (XX : cax = match rn with Some _ => map (axf cm) (removelast ds) | None => map (axf cm) ds end).
      { unfold cax, axes. pose proof RN as RN'. clear - RN'. destruct rn as [x|]; [|reflexivity]. rewrite (RN' x eq_refl) at 1. rewrite map_app. cbn [map]. apply removelast_last. }
      assert (YY : (if real then removelast (map (axf cm) l) else map (axf cm) l) = match rn with Some _ => map (axf cm) (removelast l) | None => map (axf cm) l end).
      { rewrite QR. clear - LB. destruct rn as [x|]; [|reflexivity]. rewrite (LB x eq_refl) at 1. rewrite map_app. cbn [map]. apply removelast_last. }
      rewrite XX, YY. clear - RB PB. intros i. destruct rn as [x|].
      - split; apply Permutation_in; [|apply Permutation_sym]; apply Permutation_map, (RB x eq_refl).
      - split; apply Permutation_in; [|apply Permutation_sym]; apply Permutation_map, PB. }
    destruct F_fits as [WF SF].
    assert (IB : ifftshift (nd_map (unscale k) data) (if real then removelast (map (axf cm) l) else map (axf cm) l) = Some F).
    { destruct (fftshift_ok F cax WF) as (b & Eb & Wb & Sb & Ib & _).
      assert (data = nd_map (scale k) b).
      { unfold fftshift in ES, Eb. cbn [nd_map nd_shape] in ES.
        assert (Y : nd_roll (nd_map (scale k) F) (shifts_on (fun n => n / 2) (nd_shape F) cax) = Some (nd_map (scale k) b)).
        { apply nd_map_roll; [exact WF|apply shifts_on_length|exact Eb]. }
        unfold nd_map at 1 in ES. unfold nd_map at 1 in Y. congruence. }
      rewrite H, nd_map_id by (intros x; apply (fc_scale _ _ _ _ _ _ _ _ FC), KN).
      unfold ifftshift in *. rewrite <- (shifts_on_ext _ _ _ _ CX). exact Ib. }
    rewrite IB.
    assert (LN : l <> []) by (intros Q; rewrite Q in PB; apply Permutation_sym, Permutation_nil in PB; apply (proj1 (proj2 ED)), PB).
    assert (SZE : match map (fun d => r_len (rgf cm d)) l with [] => None | _ => Some (map (fun d => r_len (rgf cm d)) l) end = Some (sizes_at S (map (axf cm) l))).
    { assert (Q : map (fun d => r_len (rgf cm d)) l = sizes_at S (map (axf cm) l)).
      { unfold sizes_at. rewrite map_map. apply map_ext_in. intros d J. symmetry. apply nth_error_nth, SZ, I2, J. }
      rewrite <- Q. clear - LN. destruct l; [contradiction|reflexivity]. }
    assert (ZL : zlen (sizes_at S (map (axf cm) l)) =? zlen (map (axf cm) l) = true) by (unfold sizes_at; rewrite zlen_map; apply Z.eqb_refl).
    destruct (map (fun d => r_len (rgf cm d)) l) as [|z zs] eqn:MZ; [discriminate SZE|]. assert (SZE' : z :: zs = sizes_at S (map (axf cm) l)) by congruence. rewrite SZE', ZL. cbn [negb].
    assert (INV : (if real then irfftn else ifftn) (Some (sizes_at S (map (axf cm) l))) (map (axf cm) l) F = p_data q).
    { pose proof (AX ds (fun d I => I) (proj1 ED)) as AO. unfold F, axes. assert (FQ : fits S (p_data q)) by (split; [apply (wp_nd _ WQ)|reflexivity]).
      rewrite QR. pose proof RN as RN'. pose proof GD as GD'. clear - FC AO FQ LB RB PB RN' GD'. destruct rn as [x|].
      - rewrite (LB x eq_refl), (RN' x eq_refl) in *. rewrite !map_app in *. cbn [map] in *. rewrite !removelast_last in RB.
        apply (fc_irfft _ _ _ _ _ _ _ _ FC); [exact FQ|apply GD'; discriminate|exact AO|]. apply Permutation_map. apply (RB x eq_refl).
      - apply (fc_ifft _ _ _ _ _ _ _ _ FC); [exact FQ|exact AO|apply Permutation_map, PB]. }
    rewrite INV.
    destruct (new_patch_ok R (p_data q) (rs_wf _ _ _ RS) (wp_nd _ WQ)) as [EN WN].
    { rewrite (rs_dims _ _ _ RS). apply (wp_some _ WQ). }
    { apply restored_len, RS. }
    rewrite EN. cbn [bind]. exists R. split; [exact RS|]. split; [exact WN|]. unfold trims_of. destruct (trims (rgf cm) ou pad l); reflexivity.
Qed.
End Core.
