(** Lemmas behind CalcProps.v: patches along several dimensions. *)
From Verif Require Import Base BaseFacts CoordModel CoordSpec CoordProofs CoordProofs2 CoordProofs5 NdModel NdSpec NdProofs FrameModel ChunkModel
  CmModel CmSpec CmProofs CmProofs2 CmProofs3 TaperProofs2 MergeModel MergeProofs7 AggModel AggSpec AggProofs AggProofs2 ConcatSpec ConcatProofs2 MuteModel
  CalcModel CalcSpec CalcProofs CalcProofs2.
From Coq Require Import Strings.String ZifyBool QArith Lqa.
Local Open Scope Z_scope.
Local Open Scope list_scope.

Lemma f2_len {B C} {P : B -> C -> Prop} {l m} : Forall2 P l m -> List.length l = List.length m.
Proof. induction 1; cbn; congruence. Qed.

(** ** The dimensions asked for *)
Lemma dim_fits (p : patch Q) d c : wf_patch p -> In d (cm_dims (p_cm p)) -> assoc d (cm_coords (p_cm p)) = Some (M1 c) -> in_order c ->
  exists e, get_spacing (p_cm p) d = Ok e /\ fits (p_cm p) (nd_shape (p_data p)) d e /\ e = (spacing_of c, snd e).
Proof.
  intros W J E O. pose proof (wp_cm _ W) as Wc. apply In_nth_error in J. destruct J as [ax X].
  exists (spacing_of c, ax). split; [apply get_spacing_ok; auto|]. split; [|reflexivity]. exists c. cbn [fst snd].
  destruct (MergeProofs7.shape_at (cm_dims (p_cm p)) p ax d W eq_refl X) as (c' & E' & N). rewrite E in E'. injection E' as <-.
  pose proof (wf_vals _ Wc _ _ E) as V. cbn in V. repeat split; auto.
Qed.
Lemma all_fit (p : patch Q) ds : wf_patch p -> (forall d, In d ds -> sorted_dim p d) ->
  exists l, map_result (get_spacing (p_cm p)) ds = Ok l /\ Forall2 (fits (p_cm p) (nd_shape (p_data p))) ds l.
Proof.
  intros W. induction ds as [|d ds IH]; intros H; [exists []; split; [reflexivity|constructor]|].
  destruct (H d (or_introl eq_refl)) as (J & c & E & O). destruct (dim_fits p d c W J E O) as (e & G & F & _).
  destruct IH as (l & M & Fl); [intros; apply H; right; assumption|]. exists (e :: l). split; [|constructor; assumption].
  cbn [map_result]. rewrite G. cbn [bind]. rewrite M. reflexivity.
Qed.
Lemma get_spacing_cases (p : patch Q) d : wf_patch p -> (sorted_dim p d /\ exists e, get_spacing (p_cm p) d = Ok e) \/ (~ sorted_dim p d /\ get_spacing (p_cm p) d = Err CoordError).
Proof.
  intros W. destruct (assoc d (cm_coords (p_cm p))) as [[c| |]|] eqn:E.
  - assert (DO : in_order c \/ ~ in_order c) by (destruct c; cbn; tauto). destruct DO as [O|O].
    + destruct (In_dec string_dec d (cm_dims (p_cm p))) as [J|J].
      * left. split; [split; eauto|]. destruct (dim_fits p d c W J E O) as (e & G & _). eauto.
      * right. split; [intros [Q _]; contradiction|]. unfold get_spacing. rewrite E. destruct (_ || _); [|reflexivity].
        unfold get_axis. destruct (index_of d (cm_dims (p_cm p))) as [n|] eqn:Q; [|reflexivity]. apply index_of_spec in Q. destruct Q as [Q _]. destruct J. eapply nth_error_In; exact Q.
    + right. split; [intros (_ & c' & E' & O'); rewrite E in E'; injection E' as <-; contradiction|]. apply get_spacing_bad. intros c' E'. rewrite E in E'. injection E' as <-. exact O.
  - right. split; [intros (_ & c' & E' & _); congruence|]. apply get_spacing_bad. congruence.
  - right. split; [intros (_ & c' & E' & _); congruence|]. apply get_spacing_bad. congruence.
  - right. split; [intros (_ & c' & E' & _); congruence|]. apply get_spacing_bad. congruence.
Qed.
Lemma some_unsorted (p : patch Q) ds : wf_patch p -> (exists d, In d ds /\ ~ sorted_dim p d) -> map_result (get_spacing (p_cm p)) ds = Err CoordError.
Proof.
  intros W. induction ds as [|d ds IH]; intros (x & J & N); [destruct J|]. cbn [map_result].
  destruct (get_spacing_cases p d W) as [[S (e & ->)]|[_ ->]]; [|reflexivity]. cbn [bind].
  rewrite IH; [reflexivity|]. destruct J as [->|J]; [contradiction|]. eauto.
Qed.

(** ** One axis after the other *)
Lemma fold_err {B C} (f : B -> C -> result B) l e : fold_left (fun acc x => do a <- acc; f a x) l (Err e) = Err e.
Proof. induction l; cbn; auto. Qed.
Lemma fold_axes {B C D} (f : B -> D -> result B) (R : C -> B -> B -> Prop) (P : C -> D -> Prop) (I : list C -> B -> Prop) ds l a :
  (forall d t e a, P d e -> I (d :: t) a -> exists b, f a e = Ok b /\ R d a b /\ I t b) ->
  Forall2 P ds l -> I ds a ->
  exists b, fold_left (fun acc x => do a <- acc; f a x) l (Ok a) = Ok b /\ steps R ds a b /\ I [] b.
Proof.
  intros H F. revert a. induction F as [|d e ds l Pd F IH]; intros a J.
  - exists a. cbn. split; [reflexivity|]. split; [constructor|exact J].
  - destruct (H d ds e a Pd J) as (b & E & Rb & Jb). destruct (IH b Jb) as (b' & E' & S & K). exists b'. cbn [fold_left bind]. rewrite E.
    split; [exact E'|]. split; [econstructor; eauto|exact K].
Qed.
(** ... when one fails. *)
Lemma fold_axes_err {B C D} (f : B -> D -> result B) (P : C -> D -> Prop) (I : B -> Prop) (bad : C -> Prop) x ds l a :
  (forall d e a, P d e -> I a -> (exists b, f a e = Ok b /\ I b) \/ f a e = Err x) ->
  (forall d e a, P d e -> I a -> bad d -> f a e = Err x) ->
  Forall2 P ds l -> I a -> (exists d, In d ds /\ bad d) ->
  fold_left (fun acc x => do a <- acc; f a x) l (Ok a) = Err x.
Proof.
  intros H H2 F. revert a. induction F as [|d e ds l Pd F IH]; intros a J (y & Y & By); [destruct Y|]. cbn [fold_left bind].
  destruct Y as [->|Y].
  - rewrite (H2 y e a Pd J By). apply fold_err.
  - destruct (H d e a Pd J) as [(b & Eb & Jb)|Ex]; [|rewrite Ex; apply fold_err]. rewrite Eb; apply IH; eauto.
Qed.

(** ** Differentiate *)
Lemma differentiate_ok ints dim step (p : patch Q) : wf_patch p -> step <= 1 ->
  (forall d, In d (asked (p_cm p) dim) -> sorted_dim p d /\ 3 <= length_of d p) ->
  exists out, pt_differentiate ints dim step p = Ok out /\ p_cm out = p_cm p /\
    steps (derivative false 1 (p_cm p)) (asked (p_cm p) dim) (p_data p) (p_data out) /\ wf_patch out.
Proof.
  intros W S1 H. set (ds := asked (p_cm p) dim) in *. destruct (all_fit p ds W) as (l & M & F); [intros d J; apply H, J|].
  unfold pt_differentiate. fold ds. rewrite M. cbn [bind]. destruct (1 <? step) eqn:Q; [lia|].
  destruct (fold_axes grad_axis (derivative false 1 (p_cm p)) (fits (p_cm p) (nd_shape (p_data p)))
    (fun t a => wf_nd a /\ nd_shape a = nd_shape (p_data p) /\ forall d, In d t -> In d ds) ds l (p_data p)) as (b & E & S & (Wb & Sb & _)).
  - intros d t e a Fe (Wa & Sa & Sub). rewrite <- Sa in Fe. destruct (grad_axis_ok (p_cm p) a d e Wa Fe) as (b & E & D).
    + intros c Ec. destruct (H d) as [_ L]; [apply Sub; left; reflexivity|]. unfold length_of in L. rewrite Ec in L. exact L.
    + exists b. split; [exact E|]. split; [exact D|]. destruct D as (Wb & Sb & _). split; [exact Wb|]. split; [congruence|]. intros; apply Sub; right; assumption.
  - exact F.
  - split; [apply (wp_nd _ W)|]. auto.
  - rewrite E. cbn [bind]. exists (mkPatch (p_cm p) b). split; [reflexivity|]. split; [reflexivity|]. split; [exact S|].
    split; cbn [p_cm p_data]; [apply W|exact Wb|apply W|rewrite Sb; apply (wp_shape _ W)].
Qed.
Lemma strided_patch ints dim step (p : patch Q) d : wf_patch p -> 1 < step -> asked (p_cm p) dim = [d] -> sorted_dim p d -> 3 * step <= length_of d p ->
  exists out, pt_differentiate ints dim step p = Ok out /\ p_cm out = p_cm p /\ derivative ints step (p_cm p) d (p_data p) (p_data out) /\ wf_patch out.
Proof.
  intros W S1 A D L. destruct (all_fit p [d] W) as (l & M & F); [intros x [<-|[]]; exact D|].
  unfold pt_differentiate. rewrite A, M. cbn [bind]. destruct (1 <? step) eqn:Q; [|lia].
  inversion F as [|x e ds' l' Fe F']; subst. inversion F'; subst.
  destruct (strided_ok ints (p_cm p) (p_data p) d e step (wp_nd _ W) Fe) as (b & E & Dv); [lia| |].
  { intros c Ec. unfold length_of in L. rewrite Ec in L. exact L. }
  rewrite E. cbn [bind]. exists (mkPatch (p_cm p) b). split; [reflexivity|]. split; [reflexivity|]. split; [exact Dv|].
  destruct Dv as (Wb & Sb & _). split; cbn [p_cm p_data]; [apply W|exact Wb|apply W|rewrite Sb; apply (wp_shape _ W)].
Qed.
Lemma differentiate_short ints dim step (p : patch Q) : wf_patch p -> step <= 1 ->
  (forall d, In d (asked (p_cm p) dim) -> sorted_dim p d) -> (exists d, In d (asked (p_cm p) dim) /\ length_of d p < 3) ->
  pt_differentiate ints dim step p = Err ValueError.
Proof.
  intros W S1 H B. set (ds := asked (p_cm p) dim) in *. destruct (all_fit p ds W H) as (l & M & F).
  unfold pt_differentiate. fold ds. rewrite M. cbn [bind]. destruct (1 <? step) eqn:Q; [lia|].
  rewrite (fold_axes_err grad_axis (fits (p_cm p) (nd_shape (p_data p))) (fun a => wf_nd a /\ nd_shape a = nd_shape (p_data p)) (fun d => length_of d p < 3) ValueError ds l (p_data p)); auto.
  - intros d e a Fe (Wa & Sa). rewrite <- Sa in Fe. destruct Fe as (c & X & Ec & Fc). destruct (Z_lt_dec (c_len c) 3) as [L|L].
    + right. destruct Fc as (_ & _ & _ & N). unfold grad_axis. rewrite N. destruct (c_len c <? 3) eqn:Q2; [reflexivity|lia].
    + left. destruct (grad_axis_ok (p_cm p) a d e Wa) as (b & E & D); [exists c; auto|intros c' Ec'; rewrite Ec in Ec'; injection Ec' as <-; lia|].
      exists b. split; [exact E|]. destruct D as (Wb & Sb & _). split; [exact Wb|congruence].
  - intros d e a Fe (Wa & Sa) L. rewrite <- Sa in Fe. destruct Fe as (c & X & Ec & _ & _ & _ & N). unfold length_of in L. rewrite Ec in L.
    unfold grad_axis. rewrite N. destruct (c_len c <? 3) eqn:Q2; [reflexivity|lia].
  - split; [apply W|reflexivity].
Qed.
Lemma strided_short ints dim step (p : patch Q) d : wf_patch p -> 1 < step -> asked (p_cm p) dim = [d] -> sorted_dim p d -> length_of d p < 3 * step ->
  pt_differentiate ints dim step p = Err ValueError.
Proof.
  intros W S1 A D L. destruct (all_fit p [d] W) as (l & M & F); [intros x [<-|[]]; exact D|].
  unfold pt_differentiate. rewrite A, M. cbn [bind]. destruct (1 <? step) eqn:Q; [|lia].
  inversion F as [|x e ds' l' Fe F']; subst. inversion F'; subst. destruct Fe as (c & X & Ec & Wc & O & _ & N). unfold length_of in L. rewrite Ec in L.
  pose proof (len_pos c Wc O). destruct e as [sp ax]. cbn [snd] in N. unfold strided_diff. rewrite N, short_slices by lia. destruct (c_len c <? 3 * step) eqn:Q2; [reflexivity|lia].
Qed.
Lemma strided_several ints dim step (p : patch Q) : wf_patch p -> 1 < step -> (forall d, In d (asked (p_cm p) dim) -> sorted_dim p d) ->
  (2 <= List.length (asked (p_cm p) dim))%nat -> pt_differentiate ints dim step p = Err ParameterError.
Proof.
  intros W S1 H L. destruct (all_fit p (asked (p_cm p) dim) W H) as (l & M & F). unfold pt_differentiate. rewrite M. cbn [bind].
  destruct (1 <? step) eqn:Q; [|lia]. rewrite (f2_len F) in L. destruct l as [|e1 [|e2 t]]; cbn in L; try lia. destruct e1; reflexivity.
Qed.
Lemma differentiate_unsorted ints dim step (p : patch Q) : wf_patch p -> (exists d, In d (asked (p_cm p) dim) /\ ~ sorted_dim p d) ->
  pt_differentiate ints dim step p = Err CoordError.
Proof. intros W H. unfold pt_differentiate. rewrite some_unsorted; auto. Qed.

(** A parabola is differentiated exactly. *)
Lemma derivative_parabola s cm d a b : wf_cm cm -> derivative false s cm d a b ->
  exists ax c, nth_error (cm_dims cm) ax = Some d /\ assoc d (cm_coords cm) = Some (M1 c) /\
  (in_order c -> 1 <= s -> forall ix i t0 t1 t2, inb (nd_shape a) ix -> nth_error ix ax = Some i ->
    (forall j x y, label c j x -> on_line a ax ix j y -> parabola t0 t1 t2 x y) ->
    exists x q, label c i x /\ nd_get b ix = Some q /\ (q == t1 + 2 * t2 * x)%Q).
Proof.
  intros Wc (Wb & Sb & ax & c & X & E & H). exists ax, c. split; [exact X|]. split; [exact E|].
  intros O S1 ix i t0 t1 t2 I Ei P. destruct (H ix i I Ei) as (x0 & y0 & x1 & y1 & x2 & y2 & x & m & q & L0 & L1 & L2 & Lx & O0 & O1 & O2 & F & G & Q).
  exists x, q. split; [exact Lx|]. split; [exact G|]. cbn in Q. rewrite Q.
  pose proof (wf_vals _ Wc _ _ E) as Wd. cbn in Wd. pose proof (xs_mono c Wd O) as M.
  assert (P0 := P _ _ _ L0 O0). assert (P1 := P _ _ _ L1 O1). assert (P2 := P _ _ _ L2 O2).
  apply label_xs in L0. apply label_xs in L1. apply label_xs in L2. rewrite ints_len, <- xs_len in L0, L1, L2 by auto.
  set (k := middle s (c_len c) i) in *. destruct L0 as [B0 ->], L1 as [B1 ->], L2 as [B2 ->].
  eapply fit_unique; [| | |exact F|exact P0|exact P1|exact P2]; [intros _ _| |]; apply mono_ne; auto; lia.
Qed.

(** ** Running integrals *)
Lemma last_axis (l : list string) ax d : NoDup l -> nth_error l ax = Some d -> (nth_error (rev l) 0 = Some d <-> S ax = List.length l).
Proof.
  intros N X. destruct (rev l) as [|z t] eqn:R.
  - apply (f_equal (@rev string)) in R. rewrite rev_involutive in R. subst l. destruct ax; discriminate.
  - apply (f_equal (@rev string)) in R. rewrite rev_involutive in R. cbn [rev] in R. subst l. cbn [nth_error]. rewrite app_length. cbn [List.length].
    assert (Y : nth_error (rev t ++ [z]) (List.length (rev t)) = Some z) by (rewrite nth_error_app2, Nat.sub_diag by lia; reflexivity).
    split; intros H.
    + injection H as ->. enough (ax = List.length (rev t)) by lia. eapply NoDup_nth_error; [exact N| |congruence]. apply nth_error_Some. congruence.
    + replace ax with (List.length (rev t)) in X by lia. congruence.
Qed.
Lemma cumulative_ok ints dim (p : patch Q) : wf_patch p ->
  (forall d, In d (asked (p_cm p) dim) -> sorted_dim p d /\ lies_along p d) ->
  exists out, pt_integrate ints dim false p = Ok out /\ p_cm out = p_cm p /\
    steps (running_integral ints (p_cm p)) (asked (p_cm p) dim) (p_data p) (p_data out) /\ wf_patch out.
Proof.
  intros W H. set (ds := asked (p_cm p) dim) in *. destruct (all_fit p ds W) as (l & M & F); [intros d J; apply H, J|].
  unfold pt_integrate. fold ds. cbv zeta. rewrite M. cbn [bind].
  destruct (fold_axes (cum_axis ints) (running_integral ints (p_cm p)) (fits (p_cm p) (nd_shape (p_data p)))
    (fun t a => wf_nd a /\ nd_shape a = nd_shape (p_data p) /\ forall d, In d t -> In d ds) ds l (p_data p)) as (b & E & S & (Wb & Sb & _)).
  - intros d t e a Fe (Wa & Sa & Sub). rewrite <- Sa in Fe. destruct (cum_axis_ok ints (p_cm p) a d e Wa Fe) as (b & E & D).
    + intros c Ec. destruct (H d) as [_ L]; [apply Sub; left; reflexivity|]. specialize (L c Ec). destruct Fe as (_ & X & _).
      unfold lies. destruct c; [exact I| | |]; (destruct L as [L|L]; [left|right; exact L]); apply Nat.eqb_eq;
        rewrite Sa, <- (f2_len (wp_shape _ W)); apply (last_axis _ _ d); auto; apply (wf_dims _ (wp_cm _ W)).
    + exists b. split; [exact E|]. split; [exact D|]. destruct D as (Wb & Sb & _). split; [exact Wb|]. split; [congruence|]. intros; apply Sub; right; assumption.
  - exact F.
  - split; [apply (wp_nd _ W)|]. auto.
  - rewrite E. cbn [bind]. assert (WO : wf_patch (mkPatch (p_cm p) b)) by (split; cbn [p_cm p_data]; [apply W|exact Wb|apply W|rewrite Sb; apply (wp_shape _ W)]).
    exists (mkPatch (p_cm p) b). split; [|auto]. apply new_patch_ok; [apply W|exact Wb|apply W|apply WO].
Qed.
Lemma integrate_unsorted ints dim definite (p : patch Q) : wf_patch p -> (exists d, In d (asked (p_cm p) dim) /\ ~ sorted_dim p d) ->
  pt_integrate ints dim definite p = Err CoordError.
Proof. intros W H. unfold pt_integrate. cbv zeta. rewrite some_unsorted; auto. Qed.
(** Widths that do not lie along the last axis and are not as many as it has elements. *)
Lemma cumulative_fails ints (p : patch Q) d last k v : wf_patch p -> nth_error (rev (cm_dims (p_cm p))) 0 = Some last -> d <> last ->
  In d (cm_dims (p_cm p)) -> assoc d (cm_coords (p_cm p)) = Some (M1 (CMono k v)) -> zlen v <> 2 -> zlen v - 1 <> length_of last p ->
  pt_integrate ints (Some [d]) false p = Err ValueError.
Proof.
  intros W La Nd J E L2 L1. assert (SD : sorted_dim p d) by (split; [exact J|exists (CMono k v); split; [exact E|exact I]]).
  destruct (all_fit p [d] W) as (l & M & F); [intros x [<-|[]]; exact SD|]. unfold pt_integrate. cbn [asked]. cbv zeta. rewrite M. cbn [bind].
  inversion F as [|x e ds' l' Fe F']; subst. inversion F'; subst. destruct Fe as (c & X & Ec & Wc & O & S & N). rewrite E in Ec. injection Ec as <-.
  cbn [fold_left bind]. unfold cum_axis. cbv zeta. pose proof (wf_dims _ (wp_cm _ W)) as ND. pose proof (f2_len (wp_shape _ W)) as LEN.
  assert (Nat.eqb (Datatypes.S (snd e)) (List.length (nd_shape (p_data p))) = false) as ->.
  { apply Nat.eqb_neq. intros Q. rewrite <- LEN in Q. apply (last_axis _ _ d ND X) in Q. congruence. }
  assert (LL : List.last (nd_shape (p_data p)) 0 = length_of last p).
  { assert (J' : In last (cm_dims (p_cm p))) by (apply in_rev; apply nth_error_In with 0%nat; exact La). apply In_nth_error in J'. destruct J' as [ax' X'].
    destruct (MergeProofs7.shape_at (cm_dims (p_cm p)) p ax' last W eq_refl X') as (c' & E' & N'). pose proof (proj1 (last_axis _ _ _ ND X') La) as Q. unfold length_of. rewrite E'.
    clear - LEN Q N'. rewrite LEN in Q. clear LEN. revert ax' Q N'. induction (nd_shape (p_data p)) as [|n [|m s] IH]; intros [|ax'] Q N'; cbn in *; try lia; try congruence.
    apply (IH ax'); [lia|exact N']. }
  rewrite S. cbn [spacing_of broadcasts]. rewrite xs_len by auto. cbn [c_len]. rewrite LL.
  destruct (zlen v - 1 =? 1) eqn:Q1; [lia|]. destruct (zlen v - 1 =? length_of last p) eqn:Q2; [lia|]. reflexivity.
Qed.

(** ** Whole integrals *)
Lemma trap_axis_ok cm a d e : wf_nd a -> fits cm (nd_shape a) d e -> exists b, trap_axis a e = Ok b /\ whole_integral cm d a b.
Proof.
  intros W (c & X & E & Wc & O & S & N). unfold trap_axis. destruct (fold_ok (trapezoid (fst e)) (snd e) (c_len c) a W N) as (b & Eb & Wb & Fb).
  rewrite Eb. destruct (fold_kept_ok _ _ _ _ Wb Fb) as [Wk (s & n & S1 & LE & S2 & G)]. cbv zeta in Wk.
  exists (mkNd (insert_at (nd_shape b) (snd e) 1) (nd_flat b)). split; [reflexivity|]. split; [exact Wk|].
  exists (snd e), c. split; [exact X|]. split; [exact E|]. cbn [nd_shape] in *. split; [rewrite S2, S1, put_entry by exact LE; reflexivity|].
  intros ix I. rewrite S2 in I. destruct (inb_entry_inv s ix (snd e) 1 LE I) as (kx & i & -> & K & B). assert (i = 0) as -> by lia.
  destruct (G kx K) as (vs & [L V] & Gv). assert (n = c_len c) as ->. { rewrite S1, with_entry_length in N by exact LE. congruence. }
  pose proof (len_pos c Wc O) as LP. assert (LK : (snd e <= List.length kx)%nat) by (rewrite <- (f2_len K); exact LE).
  exists (fun i => psum 0 (areas (width (fst e) true []) vs) (Z.to_nat i)), (trapezoid (fst e) vs). split; [|split; [exact Gv|]].
  - apply cum_area; auto.
    + intros k Kb. rewrite put_entry by exact LK. apply V, Kb.
    + intros j J1 J2. rewrite S. apply width_ok; auto. destruct c; cbn; auto.
  - assert (Z.to_nat (c_len c - 1) = List.length (areas (width (fst e) true []) vs)) as ->.
    { pose proof (areas_len (width (fst e) true []) vs ltac:(lia)) as AL. unfold zlen in AL at 1. lia. }
    rewrite psum_all. unfold trapezoid. ring.
Qed.
Lemma distinctb_ok l : NoDup l -> distinctb l = true.
Proof.
  induction 1 as [|x t N _ IH]; [reflexivity|]. cbn [distinctb]. rewrite IH. destruct (mem x t) eqn:M; [apply mem_In' in M; contradiction|reflexivity].
Qed.
Lemma traps_ok (p : patch Q) ds l : wf_patch p -> NoDup ds -> Forall2 (fits (p_cm p) (nd_shape (p_data p))) ds l ->
  exists b, fold_left (fun acc e => do a <- acc; trap_axis a e) l (Ok (p_data p)) = Ok b /\
    steps (whole_integral (p_cm p)) ds (p_data p) b /\ wf_nd b /\
    List.length (nd_shape b) = List.length (nd_shape (p_data p)) /\
    forall d ax, nth_error (cm_dims (p_cm p)) ax = Some d ->
      nth_error (nd_shape b) ax = if mem d ds then Some 1 else nth_error (nd_shape (p_data p)) ax.
Proof.
  intros W ND F. pose proof (wf_dims _ (wp_cm _ W)) as NDd. set (cm := p_cm p) in *. set (s := nd_shape (p_data p)) in *.
  destruct (fold_axes trap_axis (whole_integral cm) (fits cm s)
    (fun t a => wf_nd a /\ List.length (nd_shape a) = List.length s /\ NoDup t /\ exists done, ds = done ++ t /\ forall d ax, nth_error (cm_dims cm) ax = Some d ->
      nth_error (nd_shape a) ax = if mem d done then Some 1 else nth_error s ax) ds l (p_data p)) as (b & E & S & (Wb & Lb & _ & done & D & K)).
  - intros d t e a (c & X & Ec & Wc & O & S & N) (Wa & La & NDt & done & D & K).
    assert (Nd : ~ In d done). { rewrite D in ND. apply NoDup_remove_2 in ND. intros Q. apply ND, in_app_iff. auto. }
    assert (Md : mem d done = false) by (destruct (mem d done) eqn:M; [apply mem_In' in M; contradiction|reflexivity]).
    assert (Na : nth_error (nd_shape a) (snd e) = Some (c_len c)) by (rewrite (K d _ X), Md; exact N).
    destruct (trap_axis_ok cm a d e Wa) as (b & E & H); [exists c; repeat split; auto|]. exists b. split; [exact E|]. split; [exact H|].
    destruct H as (Wb & ax & c' & X' & _ & Sb & _). split; [exact Wb|]. split; [rewrite Sb, put_length; exact La|]. split; [inversion NDt; assumption|].
    exists (done ++ [d]). split; [rewrite <- app_assoc; exact D|]. intros d' ax' Xd. rewrite Sb.
    assert (ax = snd e) as -> by (eapply NoDup_nth_error; [exact NDd|apply nth_error_Some; congruence|congruence]).
    destruct (string_dec d' d) as [->|Q].
    + assert (ax' = snd e) as -> by (eapply NoDup_nth_error; [exact NDd|apply nth_error_Some; congruence|congruence]).
      rewrite (proj2 (mem_In' d (done ++ [d]))) by (apply in_app_iff; right; left; reflexivity). apply nth_put_same, nth_error_Some. congruence.
    + rewrite nth_put_other by (intros Q'; subst ax'; congruence). rewrite (K d' ax' Xd).
      replace (mem d' (done ++ [d])) with (mem d' done); [reflexivity|]. destruct (mem d' done) eqn:M1, (mem d' (done ++ [d])) eqn:M2; try reflexivity.
      * apply mem_In' in M1. rewrite (proj2 (mem_In' d' (done ++ [d]))) in M2 by (apply in_app_iff; auto). discriminate.
      * apply mem_In', in_app_iff in M2. destruct M2 as [M2|[M2|[]]]; [|congruence]. apply mem_In' in M2. congruence.
  - exact F.
  - split; [apply (wp_nd _ W)|]. split; [reflexivity|]. split; [exact ND|]. exists []. split; [reflexivity|]. intros d ax X. reflexivity.
  - rewrite app_nil_r in D. subst done. exists b. auto.
Qed.
