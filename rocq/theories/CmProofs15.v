(** Lemmas behind CmProps.v: squeeze and append. *)
From Verif Require Import Base BaseFacts CoordModel CoordSpec CoordProofs CoordProofs2 CoordProofs3
  CoordProofs4 CoordProofs5 NdModel NdSpec NdProofs NdProofs2 NdProofs3 FrameModel FrameProofs5 ChunkModel CmModel CmSpec
  CmProofs CmProofs2 CmProofs3 CmProofs4 CmProofs5 CmProofs8 CmProofs10 CmProofs12 CmProofs13.
From Coq Require Import Strings.String ZifyBool Sorting.Permutation Sorting.Sorted.
Ltac Zify.zify_post_hook ::= Z.div_mod_to_equations.
Local Open Scope Z_scope.
Local Open Scope list_scope.

Lemma filter_true' {B} (f : B -> bool) l : (forall x, f x = true) -> filter f l = l.
Proof. intros H. induction l as [|x t IH]; cbn [filter]; [reflexivity|]. rewrite H. f_equal. exact IH. Qed.

Lemma drop_axes_named {A} (f : string -> A) axes (P : string -> bool) D :
  (forall k d, nth_error D k = Some d -> existsb (Nat.eqb k) axes = P d) ->
  drop_axes 0 axes (map f D) = map f (filter (fun d => negb (P d)) D).
Proof.
  intros H.
  assert (Q : forall L b, (forall k d, nth_error L k = Some d -> existsb (Nat.eqb (b + k)) axes = P d) ->
    drop_axes b axes (map f L) = map f (filter (fun d => negb (P d)) L)).
  { induction L as [|d L IH]; intros b Hb; [reflexivity|]. cbn [map drop_axes filter].
    pose proof (Hb O d eq_refl) as E. rewrite Nat.add_0_r in E. rewrite E.
    assert (Q : drop_axes (S b) axes (map f L) = map f (filter (fun d => negb (P d)) L)).
    { apply IH. intros k e Ek. replace (S b + k)%nat with (b + S k)%nat by lia. apply Hb. exact Ek. }
    destruct (P d); cbn [negb map]; rewrite Q; reflexivity. }
  apply (Q D O). exact H.
Qed.

Lemma ones_spec s k : existsb (Nat.eqb k) (ones s) = match nth_error s k with Some n => n =? 1 | None => false end.
Proof.
  assert (Q : forall s b, existsb (Nat.eqb k) (map fst (filter (fun e => snd e =? 1) (combine (seq b (List.length s)) s))) =
     if (b <=? k)%nat then match nth_error s (k - b) with Some n => n =? 1 | None => false end else false).
  { clear s. induction s as [|x s IH]; intros b; cbn [List.length seq combine filter map existsb].
    - destruct (b <=? k)%nat; [destruct (k - b)%nat|]; reflexivity.
    - cbn [snd]. specialize (IH (S b)).
      assert (R : existsb (Nat.eqb k) (map fst (if x =? 1 then (b, x) :: filter (fun e => snd e =? 1) (combine (seq (S b) (List.length s)) s)
          else filter (fun e => snd e =? 1) (combine (seq (S b) (List.length s)) s))) =
          ((Nat.eqb k b && (x =? 1)) || existsb (Nat.eqb k) (map fst (filter (fun e => snd e =? 1) (combine (seq (S b) (List.length s)) s))))%bool).
      { destruct (x =? 1); cbn [map existsb fst]; destruct (Nat.eqb k b); reflexivity. }
      rewrite R, IH. clear R IH. destruct (Nat.eqb_spec k b) as [->|N].
      + rewrite Nat.leb_refl, Nat.sub_diag. cbn [nth_error]. replace (S b <=? b)%nat with false by (symmetry; apply Nat.leb_gt; lia).
        cbn [andb]. apply orb_false_r.
      + cbn [andb orb]. destruct (Nat.leb_spec (S b) k), (Nat.leb_spec b k); try lia; try reflexivity.
        replace (k - b)%nat with (S (k - S b)) by lia. reflexivity. }
  unfold ones. rewrite Q. cbn [Nat.leb]. rewrite Nat.sub_0_r. reflexivity.
Qed.

(** The dimensions a squeeze call asks for. *)
Lemma cm_squeeze_names cm dim l : wf_cm cm ->
  match dim with
  | Some l' => l = l'
  | None => forall d, In d l <-> In d (cm_dims cm) /\ exists n, dim_len cm d n /\ n <= 1
  end ->
  (forall d, In d l -> dim_len cm d 1 /\ In d (cm_dims cm)) -> l <> [] ->
  exists l' cm', cm_squeeze cm dim = Ok (Some cm') /\ (forall d, In d l' <-> In d l) /\ wf_cm cm' /\
    cm_dims cm' = filter (fun d => negb (mem d l)) (cm_dims cm) /\
    (forall n, assoc n (cm_coords cm') = if droppedb cm l n then None else assoc n (cm_coords cm)) /\
    (forall n, assoc n (cm_dmap cm') = if droppedb cm l n then None else assoc n (cm_dmap cm)).
Proof.
  intros W H1 H2 NE.
  assert (ND : exists l', (forall d, In d l' <-> In d l) /\ cm_squeeze cm dim =
    (if negb (subset l' (cm_dims cm)) then Err CoordError
     else do _ <- map_result (fun d => match assoc d (cm_coords cm) with
                                 | Some m => do n <- m_len m; if 1 <? n then Err CoordError else Ok tt
                                 | None => Err KeyError end) l';
     match l' with [] => Ok None | _ => do x <- drop_coords cm l'; Ok (Some (fst x)) end)).
  { unfold cm_squeeze. destruct dim as [l'|].
    - subst l'. exists l. split; [tauto|reflexivity].
    - set (g := fun d => match assoc d (cm_coords cm) with
                         | Some m => match m_len m with Ok n => if n <=? 1 then [d] else [] | Err _ => [] end | None => [] end).
      assert (GL : forall d, In d (cm_dims cm) -> exists c, assoc d (cm_coords cm) = Some (M1 c) /\ g d = if c_len c <=? 1 then [d] else []).
      { intros d D. destruct (wf_dim_coord cm d W D) as (c & C & _ & _). exists c. split; [exact C|]. unfold g. rewrite C. reflexivity. }
      rewrite (map_result_map _ g).
      + cbn [bind]. exists (List.concat (map g (cm_dims cm))). split; [|reflexivity]. intros d. rewrite in_concat, H1. split.
        * intros (x & X & J). apply in_map_iff in X as (e & <- & E). destruct (GL e E) as (c & C & G). rewrite G in J.
          destruct (Z.leb_spec (c_len c) 1); [|destruct J]. destruct J as [<-|[]]. split; [exact E|]. exists (c_len c).
          split; [exists c; auto|assumption].
        * intros (E & n & (c' & C' & L') & Ln). exists (g d). split; [apply in_map; exact E|]. destruct (GL d E) as (c & C & ->).
          rewrite C in C'. injection C' as <-. destruct (Z.leb_spec (c_len c) 1); [left; reflexivity|lia].
      + intros d D. destruct (GL d D) as (c & C & ->). rewrite C. reflexivity. }
  destruct ND as (l' & EL & ->).
  assert (subset l' (cm_dims cm) = true) as ->.
  { apply subset_spec. intros d D. apply H2, EL, D. }
  cbn [negb].
  destruct (proj2 (map_result_unit (fun d => match assoc d (cm_coords cm) with
                                 | Some m => do n <- m_len m; if 1 <? n then Err CoordError else Ok tt
                                 | None => Err KeyError end) l')) as [u ->].
  { intros d D. destruct (H2 d (proj1 (EL d) D)) as [(c & C & L) _]. rewrite C. cbn [m_len m_shape bind]. rewrite L. reflexivity. }
  cbn [bind]. destruct l' as [|x t].
  { destruct l as [|y l0]; [congruence|]. destruct (proj2 (EL y)). left; reflexivity. }
  destruct (drop_coords_spec cm (x :: t) W) as (cm' & -> & W' & D' & C1 & C2). cbn [bind fst].
  exists (x :: t), cm'. split; [reflexivity|]. split; [exact EL|]. split; [exact W'|].
  assert (ME : forall d, mem d (x :: t) = mem d l) by (intros d; apply eq_iff_eq_true; rewrite !mem_In'; apply EL).
  assert (DE : forall n, droppedb cm (x :: t) n = droppedb cm l n).
  { intros n. unfold droppedb. rewrite ME. f_equal. destruct (assoc n (cm_dmap cm)) as [ds|]; [|reflexivity].
    apply eq_iff_eq_true. rewrite !meets_any_spec. split; intros (y & Y1 & Y2); exists y; split; auto; apply EL; exact Y2. }
  split; [rewrite D'; apply filter_ext; intros d; rewrite ME; reflexivity|].
  split; intros n; rewrite <- DE; auto.
Qed.

Lemma pt_squeeze_ok {A} (p : patch A) dim l : wf_patch p ->
  match dim with
  | Some l' => l = l' /\ NoDup l'
  | None => forall d, In d l <-> In d (cm_dims (p_cm p)) /\ exists n, dim_len (p_cm p) d n /\ n <= 1
  end ->
  (forall d, In d l -> dim_len (p_cm p) d 1 /\ In d (cm_dims (p_cm p))) ->
  (exists d, In d (cm_dims (p_cm p)) /\ ~ In d l) ->
  exists p', pt_squeeze p dim = Ok p' /\ wf_patch p' /\
    cm_dims (p_cm p') = filter (fun d => negb (mem d l)) (cm_dims (p_cm p)) /\
    (forall n, assoc n (cm_coords (p_cm p')) = if droppedb (p_cm p) l n then None else assoc n (cm_coords (p_cm p))) /\
    (forall n, assoc n (cm_dmap (p_cm p')) = if droppedb (p_cm p) l n then None else assoc n (cm_dmap (p_cm p))) /\
    (forall pos, data_at p' pos = data_at p (fun d => if mem d l then 0 else pos d)) /\
    (l = [] -> p' = p).
Proof.
  intros WP H1 H2 (d0 & D0 & N0). destruct p as [cm a]. cbn [p_cm p_data] in *. pose proof (wp_cm _ WP) as W. cbn [p_cm] in W.
  destruct (list_eq_dec string_dec l []) as [->|NE].
  { exists (mkPatch cm a). cbn [p_cm p_data].
    assert (pt_squeeze (mkPatch cm a) dim = Ok (mkPatch cm a)) as ->.
    { unfold pt_squeeze, cm_squeeze. cbn [p_cm p_data]. destruct dim as [l'|].
      - destruct H1 as [<- _]. reflexivity.
      - rewrite (map_result_map _ (fun _ => [])).
        + cbn [bind]. replace (List.concat (map (fun _ : string => []) (cm_dims cm))) with (@nil string); [reflexivity|].
          clear. induction (cm_dims cm); auto.
        + intros d D. destruct (wf_dim_coord cm d W D) as (c & C & _ & _). rewrite C. cbn [m_len m_shape bind].
          destruct (Z.leb_spec (c_len c) 1) as [L|L]; [|reflexivity]. exfalso. apply (H1 d). split; [exact D|]. exists (c_len c). split; [exists c; auto|exact L]. }
    split; [reflexivity|]. split; [exact WP|].
    assert (DB : forall n, droppedb cm [] n = false).
    { intros n. unfold droppedb. cbn [mem existsb orb]. destruct (assoc n (cm_dmap cm)) as [ds|]; [|reflexivity]. clear. induction ds; auto. }
    split; [symmetry; apply filter_true'; reflexivity|].
    split; [intros n; rewrite DB; reflexivity|]. split; [intros n; rewrite DB; reflexivity|]. split; [reflexivity|auto]. }
  destruct (cm_squeeze_names cm dim l W) as (l' & cm' & ES & EL & W' & D' & C1 & C2).
  { destruct dim; [apply H1|exact H1]. } { exact H2. } { exact NE. }
  unfold pt_squeeze. cbn [p_cm p_data]. rewrite ES. cbn [bind].
  destruct (lens cm (nd_shape a) W (wp_shape _ WP)) as (len & SH & LN). cbn [p_data] in SH.
  assert (L1 : forall d, In d l -> len d = 1).
  { intros d D. destruct (H2 d D) as [(c & C & L) J]. destruct (LN d J) as (c' & C' & L'). congruence. }
  assert (AX : exists axes, match dim with
                 | None => Ok (ones (nd_shape a))
                 | Some l => do axes <- map_result (get_axis cm) l; if has_dup l then Err ValueError else Ok axes
                 end = Ok axes /\
      (forall k d, nth_error (cm_dims cm) k = Some d -> existsb (Nat.eqb k) axes = mem d l) /\
      (forall k, In k axes -> nth_error (nd_shape a) k = Some 1)).
  { destruct dim as [l0|].
    - destruct H1 as [<- ND].
      set (g := fun d => match index_of d (cm_dims cm) with Some k => k | None => O end).
      assert (G : forall d, In d l -> index_of d (cm_dims cm) = Some (g d)).
      { intros d D. destruct (index_of_some d (cm_dims cm)) as (k & K & _); [apply H2, D|]. unfold g. rewrite K. reflexivity. }
      rewrite (map_result_map _ g) by (intros d D; unfold get_axis; rewrite (G d D); reflexivity). cbn [bind].
      assert (has_dup l = false) as ->.
      { clear - ND. induction ND as [|x t N ND IH]; [reflexivity|]. cbn [has_dup]. rewrite (proj2 (mem_false x t) N). exact IH. }
      exists (map g l). split; [reflexivity|]. split.
      + intros k d K. apply eq_iff_eq_true. rewrite existsb_exists, mem_In'. split.
        * intros (j & J & E). apply Nat.eqb_eq in E. subst j. apply in_map_iff in J as (e & E & J).
          specialize (G e J). rewrite E in G. apply index_of_spec in G as [G _]. congruence.
        * intros J. exists (g d). split; [apply in_map, J|]. apply Nat.eqb_eq. specialize (G d J).
          rewrite (index_of_nth _ _ _ (wf_dims _ W) K) in G. congruence.
      + intros k K. apply in_map_iff in K as (d & <- & J). specialize (G d J). apply index_of_spec in G as [G _].
        rewrite SH, nth_error_map, G. cbn. f_equal. apply L1, J.
    - exists (ones (nd_shape a)). split; [reflexivity|]. split.
      + intros k d K. rewrite ones_spec, SH, nth_error_map, K. cbn [option_map]. apply eq_iff_eq_true. rewrite mem_In', Z.eqb_eq. split.
        * intros E. apply H1. split; [eapply nth_error_In; eauto|]. exists 1. split; [|lia]. rewrite <- E. apply LN. eapply nth_error_In; eauto.
        * apply L1.
      + intros k K. assert (existsb (Nat.eqb k) (ones (nd_shape a)) = true) as E.
        { apply existsb_exists. exists k. split; [exact K|apply Nat.eqb_refl]. }
        rewrite ones_spec in E. destruct (nth_error (nd_shape a) k); [|discriminate]. apply Z.eqb_eq in E. congruence. }
  destruct AX as (axes & -> & AX1 & AX2). cbn [bind].
  assert (forallb (fun ax => match nth_error (nd_shape a) ax with Some n => n =? 1 | None => false end) axes = true) as ->.
  { apply forallb_forall. intros k K. rewrite (AX2 k K). reflexivity. }
  cbn [negb].
  destruct (nd_squeeze_ok a axes (wp_nd _ WP)) as (b & -> & Wb & Sb & G).
  { intros j J _. apply AX2, J. }
  assert (WP' : wf_patch (mkPatch cm' b)).
  { split; cbn [p_cm p_data]; [exact W'|exact Wb| |].
    - rewrite D'. intros E. assert (J : In d0 []) by (rewrite <- E; apply filter_In; split; [exact D0|apply negb_true_iff, mem_false, N0]). destruct J.
    - rewrite Sb, D', SH. rewrite (drop_axes_named len axes (fun d => mem d l) (cm_dims cm) AX1).
      assert (Q : forall d, In d (filter (fun d => negb (mem d l)) (cm_dims cm)) -> dim_len cm' d (len d)).
      { intros d D. apply filter_In in D as [D N]. destruct (LN d D) as (c & C & L). exists c. split; [|exact L].
        rewrite C1. destruct (droppedb cm l d) eqn:E; [|exact C]. apply droppedb_spec, (dim_dropped cm l d W D), mem_In' in E.
        rewrite E in N. discriminate. }
      clear - Q. induction (filter (fun d => negb (mem d l)) (cm_dims cm)) as [|d t IH]; cbn; constructor.
      + apply Q. left; reflexivity.
      + apply IH. intros; apply Q; right; assumption. }
  exists (mkPatch cm' b). cbn [p_cm p_data]. split; [apply new_patch_ok; apply WP'|]. split; [exact WP'|].
  split; [exact D'|]. split; [exact C1|]. split; [exact C2|]. split; [|intros E; contradiction].
  intros pos. unfold data_at. cbn [p_cm p_data]. rewrite D'.
  set (pos0 := fun d => if mem d l then 0 else pos d).
  rewrite <- (G (map pos0 (cm_dims cm))).
  - rewrite (drop_axes_named pos0 axes (fun d => mem d l) (cm_dims cm) AX1). f_equal. apply map_ext_in.
    intros d D. apply filter_In in D as [_ N]. unfold pos0. apply negb_true_iff in N. rewrite N. reflexivity.
  - rewrite SH, !map_length. reflexivity.
  - intros j J _. pose proof (AX2 j J) as S1. rewrite SH, nth_error_map in S1.
    destruct (nth_error (cm_dims cm) j) as [d|] eqn:E; [|discriminate]. rewrite nth_error_map, E. cbn [option_map]. unfold pos0.
    rewrite <- (AX1 j d E). assert (existsb (Nat.eqb j) axes = true) as ->; [|reflexivity].
    apply existsb_exists. exists j. split; [exact J|apply Nat.eqb_refl].
Qed.

Lemma pt_squeeze_long {A} (p : patch A) l : wf_patch p ->
  (exists d, In d l /\ (~ In d (cm_dims (p_cm p)) \/ exists n, dim_len (p_cm p) d n /\ 1 < n)) ->
  pt_squeeze p (Some l) = Err CoordError.
Proof.
  intros WP (d & D & H). unfold pt_squeeze, cm_squeeze. cbn [bind].
  destruct (subset l (cm_dims (p_cm p))) eqn:S; cbn [negb]; [|reflexivity]. rewrite subset_spec in S.
  destruct H as [H|(n & (c & C & L) & Ln)]; [destruct (H (S d D))|].
  match goal with |- bind (bind ?x _) _ = _ => assert (x = Err CoordError) as -> end; [|reflexivity].
  induction l as [|x t IH]; [destruct D|]. cbn [map_result].
  destruct (wf_dim_coord (p_cm p) x (wp_cm _ WP)) as (c1 & C1 & _ & _); [apply S; left; reflexivity|].
  rewrite C1. cbn [m_len m_shape bind]. destruct (Z.ltb_spec 1 (c_len c1)); [reflexivity|]. cbn [bind].
  rewrite IH; [reflexivity| |intros y Y; apply S; right; exact Y].
  destruct D as [->|D]; [|exact D]. rewrite C in C1. injection C1 as <-. lia.
Qed.

(** ** Append *)
(** A new dimension given by a length or by values. *)

Lemma nones_tuple {B} (f : B -> string * kval) l : (forall x, is_none (f x) = false) -> nones (map f l) = [].
Proof. intros H. unfold nones. induction l as [|x t IH]; cbn [map filter]; [reflexivity|]. rewrite H. exact IH. Qed.
Lemma adds_tuple {B} (f : B -> string * kval) l : (forall x, is_none (f x) = false) -> adds (map f l) = map f l.
Proof. intros H. unfold adds. induction l as [|x t IH]; cbn [map filter]; [reflexivity|]. rewrite H. cbn [negb]. f_equal. exact IH. Qed.

Lemma pt_append_ok {A} (p : patch A) new : wf_patch p -> NoDup (map fst new) -> new <> [] ->
  (forall e, In e new -> newdim (p_cm p) e) ->
  exists p', pt_append_dims p new = Ok p' /\ wf_patch p' /\
    cm_dims (p_cm p') = cm_dims (p_cm p) ++ map fst new /\
    (forall n, In n (map fst (cm_coords (p_cm p))) ->
       assoc n (cm_coords (p_cm p')) = option_map recf (assoc n (cm_coords (p_cm p))) /\
       assoc n (cm_dmap (p_cm p')) = assoc n (cm_dmap (p_cm p))) /\
    (forall n, ~ In n (map fst (cm_coords (p_cm p))) -> ~ In n (map fst new) -> assoc n (cm_coords (p_cm p')) = None) /\
    (forall n v, assoc n new = Some v ->
       assoc n (cm_dmap (p_cm p')) = Some [n] /\
       exists c, assoc n (cm_coords (p_cm p')) = Some (M1 c) /\
         match v with VLen k => c = CPart k | VArr _ vs => represents c vs | _ => False end) /\
    (forall pos, (forall n v, assoc n new = Some v -> 0 <= pos n < newlen v) -> data_at p' pos = data_at p pos).
Proof.
  intros WP ND NE H. destruct p as [cm a]. cbn [p_cm p_data] in *. pose proof (wp_cm _ WP) as W. cbn [p_cm] in W.
  assert (DN : forall d, In d (cm_dims cm) -> In d (map fst (cm_coords cm))).
  { intros d D. destruct (con_dim _ (wf_con _ W) d D) as [[c C] _]. apply assoc_In. eauto. }
  unfold pt_append_dims. cbn [p_cm p_data].
  assert (filter (fun e => negb (mem (fst e) (cm_dims cm))) new = new) as ->.
  { clear NE ND. induction new as [|e t IH]; [reflexivity|]. cbn [filter].
    destruct (H e (or_introl eq_refl)) as (N & _). assert (mem (fst e) (cm_dims cm) = false) as -> by (apply mem_false; intros J; apply N, DN, J).
    cbn [negb]. f_equal. apply IH. intros x X; apply H; right; exact X. }
  set (body := (do lens <- _; _)).
  assert ((match new with [] => Ok (mkPatch cm a) | _ :: _ => body end) = body) as -> by (destruct new; [congruence|reflexivity]).
  subst body.
  rewrite (map_result_map _ (fun e : string * cval => newlen (snd e))).
  2: { intros [n v] E. destruct (H _ E) as (_ & _ & V). cbn [fst snd] in *. destruct v; try contradiction; reflexivity. }
  cbn [bind].
  assert (NN : Forall (fun n => 0 <= n) (map (fun e : string * cval => newlen (snd e)) new)).
  { apply Forall_forall. intros n N. apply in_map_iff in N as ([x v] & <- & E). destruct (H _ E) as (_ & _ & V). cbn [fst snd] in *.
    destruct v; try contradiction; cbn; [apply zlen_nonneg|exact V]. }
  destruct (nd_append_ok a _ (wp_nd _ WP) NN) as (b & -> & Wb & Sb & Gb).
  set (tup := fun e : string * cval => (fst e, KTuple [fst e] (snd e))).
  assert (TN : forall e, is_none (tup e) = false) by reflexivity.
  assert (FT : map fst (map tup new) = map fst new) by (rewrite map_map; reflexivity).
  set (mk := fun v => match v with VLen n => CPart n | VArr k vs => match get_coord_data k vs with Ok c => c | Err _ => CPart 0 end | _ => CPart 0 end).
  assert (MK : forall e, In e new -> cval_coord (snd e) = Ok (M1 (mk (snd e))) /\ wf_coord (mk (snd e)) /\ c_len (mk (snd e)) = newlen (snd e) /\
      cval_shape (snd e) = [newlen (snd e)] /\
      match snd e with VLen k => mk (snd e) = CPart k | VArr _ vs => represents (mk (snd e)) vs | _ => False end).
  { intros [n v] E. destruct (H _ E) as (_ & _ & V). cbn [fst snd] in *. destruct v as [m|k vs|k x|n0]; try contradiction; cbn [cval_coord mk newlen cval_shape].
    - destruct (get_coord_represents k vs) as (c & -> & R & Wc). cbn [bind]. split; [reflexivity|]. split; [exact Wc|]. split; [|auto].
      rewrite <- (c_len_values c (wf_okc _ Wc)). apply R.
    - split; [reflexivity|]. split; [exact V|]. auto. }
  set (fm := fun e : string * kval => match snd e with KTuple _ v => M1 (mk v) | _ => MNP [] end).
  set (fd := fun e : string * kval => [fst e]).
  destruct (cm_update_gen cm (map tup new) fm fd (fun _ => true)) as (C & D & EU & NC & NDD & KCD & U1 & U2 & U3).
  - exact W.
  - rewrite FT. exact ND.
  - intros e E. apply in_map_iff in E as (x & <- & X). apply (H x X).
  - intros e E _. apply in_map_iff in E as (x & <- & X). unfold coord_item, tup, fm, fd. cbn [fst snd].
    destruct (MK x X) as (E1 & E2 & E3 & E4 & _). rewrite E1. cbn [bind].
    destruct (H x X) as (N & _). assert (mem (fst x) (cm_dims cm) = false) as MF by (apply mem_false; intros J; apply N, DN, J).
    unfold subset. cbn [forallb]. unfold mem at 2 3. cbn [existsb]. rewrite String.eqb_refl. cbn [orb andb negb]. rewrite andb_false_r.
    cbn [m_shape strs_eqb]. rewrite E3, E4, String.eqb_refl, MF. cbn [zlist_eqb]. rewrite Z.eqb_refl. reflexivity.
  - intros e E _ J. apply in_map_iff in E as (x & <- & X). destruct (H x X) as (N & _). exfalso. apply N, DN, J.
  - rewrite nones_tuple, adds_tuple by exact TN. intros e E _.
    assert (In (fst e) (filter (fun x => negb (mem x [])) (cm_dims cm ++ map fst (filter (fun _ => true) (map tup new))))) as J.
    { apply filter_In. split; [|reflexivity]. apply in_app_iff. right. 
      apply in_map. apply filter_In. auto. }
    apply in_map_iff in E as (x & <- & X). unfold coord_item, tup, fm, fd in *. cbn [fst snd] in *.
    destruct (MK x X) as (E1 & E2 & E3 & E4 & _). rewrite E1. cbn [bind]. apply mem_In' in J.
    unfold subset. cbn [forallb]. rewrite J. cbn [andb negb]. cbn [m_shape strs_eqb]. rewrite E3, E4, String.eqb_refl. cbn [zlist_eqb]. rewrite Z.eqb_refl. reflexivity.
  - rewrite nones_tuple, adds_tuple in EU by exact TN.
    assert (filter (fun x => negb (mem x [])) (cm_dims cm ++ map fst (filter (fun _ => true) (map tup new))) = cm_dims cm ++ map fst new) as DE.
    { rewrite (filter_true' (fun x => negb (mem x [])) _) by reflexivity. rewrite (filter_true' (fun _ => true)) by reflexivity. rewrite FT. reflexivity. }
    rewrite DE in EU.
    assert (LK : forall n, assoc n (map tup new) = option_map (fun v => KTuple [n] v) (assoc n new)).
    { intros n. unfold tup. rewrite (assoc_map (fun e => KTuple [fst e] (snd e)) n new). destruct (assoc n new); reflexivity. }
    assert (NL : forall n, ~ lost cm (map tup new) fm n).
    { intros n [J|(ds & d & _ & _ & [J|J])].
      - rewrite nones_tuple in J by exact TN. exact J.
      - rewrite nones_tuple in J by exact TN. exact J.
      - destruct J as (e & k & c & E & _ & F & J & _). apply in_map_iff in E as (x & <- & X). destruct (H x X) as (N & _). apply N, DN. rewrite <- F in J. exact J. }
    assert (FR : forall n, In n (map fst (cm_coords cm)) -> assoc n new = None).
    { intros n J. apply assoc_None. intros K. apply in_map_iff in K as (e & <- & E). destruct (H e E) as (N & _). contradiction. }
    assert (OLD : forall n, assoc n new = None -> assoc n C = option_map recf (assoc n (cm_coords cm)) /\ assoc n D = assoc n (cm_dmap cm)).
    { intros n N. apply U3; [rewrite LK, N; reflexivity|apply NL]. }
    assert (NEW : forall n v, assoc n new = Some v -> assoc n C = Some (M1 (mk v)) /\ assoc n D = Some [n]).
    { intros n v N. destruct (U1 n (KTuple [n] v)) as [X Y]; [rewrite LK, N; reflexivity|discriminate|]. auto. }
    set (cm' := mkCm (cm_dims cm ++ map fst new) C D).
    assert (DLo : forall d n, dim_len cm d n -> dim_len cm' d n).
    { intros d n (c & Cc & L). destruct (recf_M1 c (wf_okc _ (wf_vals _ W _ _ Cc))) as (c' & R & L' & _). exists c'. split; [|congruence].
      unfold cm'. cbn [cm_coords]. destruct (OLD d) as [O _]; [apply FR, assoc_In; eauto|]. rewrite O, Cc. cbn. rewrite R. reflexivity. }
    assert (W' : wf_cm cm').
    { split; unfold cm'; cbn [cm_dims cm_coords cm_dmap].
      - split; cbn [cm_dims cm_coords cm_dmap].
        + intros d J. apply in_app_iff in J as [J|J].
          * destruct (wf_dim_coord cm d W J) as (c & Cc & Wc & Dc). destruct (OLD d (FR d (DN d J))) as [-> ->]. rewrite Cc.
            destruct (recf_M1 c (wf_okc _ Wc)) as (c' & R & _ & _). cbn. rewrite R. eauto.
          * apply assoc_In in J as [v V]. destruct (NEW d v V) as [-> ->]. eauto.
        + intros n ds E. destruct (assoc n new) as [v|] eqn:V.
          * destruct (NEW n v V) as [X Y]. rewrite E in Y. injection Y as ->. exists (M1 (mk v)). split; [exact X|]. split.
            -- intros d [<-|[]]. apply in_app_iff. right. apply assoc_In. eauto.
            -- right. cbn [m_shape]. constructor; [|constructor]. exists (mk v). auto.
          * destruct (OLD n V) as [X Y]. rewrite E in Y. destruct (con_coord _ (wf_con _ W) n ds (eq_sym Y)) as (m & M & K & F).
            exists (recf m). rewrite X, M. split; [reflexivity|]. split; [intros d J; apply in_app_iff; left; apply K, J|].
            destruct F as [->|F]; [left; reflexivity|right]. destruct (recf_spec m (wf_okm _ (wf_vals _ W _ _ M))) as (_ & -> & _).
            eapply Forall2_impl; [|exact F]. exact DLo.
      - assert (Q : forall x y : list string, NoDup x -> NoDup y -> (forall z, In z x -> ~ In z y) -> NoDup (x ++ y)).
        { induction x as [|z x IH]; intros y Nx Ny K; [exact Ny|]. inversion Nx; subst. cbn. constructor.
          - rewrite in_app_iff. intros [J|J]; [contradiction|]. apply (K z); [left; reflexivity|exact J].
          - apply IH; auto. intros w Hw. apply K. right; exact Hw. }
        apply Q; [apply (wf_dims _ W)|exact ND|]. intros z Z1 Z2. apply in_map_iff in Z2 as (e & <- & E). destruct (H e E) as (N & _). apply N, DN, Z1.
      - exact NC.
      - exact NDD.
      - intros n. apply KCD.
      - intros n ds E. destruct (assoc n new) as [v|] eqn:V.
        + destruct (NEW n v V) as [_ Y]. rewrite E in Y. injection Y as ->. repeat constructor. intros [].
        + destruct (OLD n V) as [_ Y]. rewrite E in Y. apply (wf_distinct _ W n). auto.
      - intros n m E. destruct (assoc n new) as [v|] eqn:V.
        + destruct (NEW n v V) as [X _]. rewrite E in X. injection X as ->. cbn [wf_mcoord]. apply assoc_in in V. apply (MK _ V).
        + destruct (OLD n V) as [X _]. rewrite E in X. destruct (assoc n (cm_coords cm)) as [m0|] eqn:M0; [|discriminate]. cbn in X. injection X as ->.
          apply recf_spec, wf_okm, (wf_vals _ W _ _ M0). }
    fold tup. rewrite EU, (build_wf _ _ _ W'). cbn [bind].
    assert (WP' : wf_patch (mkPatch cm' b)).
    { split; cbn [p_cm p_data]; [exact W'|exact Wb| |].
      - unfold cm'. cbn [cm_dims]. intros E. apply app_eq_nil in E as [E _]. exact (wp_some _ WP E).
      - rewrite Sb. unfold cm' at 2. cbn [cm_dims]. apply Forall2_app.
        + eapply Forall2_impl; [|apply (wp_shape _ WP)]. exact DLo.
        + assert (Q : forall e, In e new -> dim_len cm' (fst e) (newlen (snd e))).
          { intros [n v] E. exists (mk v). split; [apply NEW; apply in_assoc; [exact ND|exact E]|apply (MK _ E)]. }
          clear - Q. induction new as [|e t IH]; cbn; constructor; [apply Q; left; reflexivity|]. apply IH. intros; apply Q; right; assumption. }
    exists (mkPatch cm' b). cbn [p_cm p_data]. split; [apply new_patch_ok; apply WP'|]. split; [exact WP'|]. split; [reflexivity|].
    split; [intros n J; apply OLD, FR, J|]. split.
    { intros n J1 J2. unfold cm'. cbn [cm_coords]. destruct (OLD n) as [-> _]; [apply assoc_None, J2|]. apply assoc_None in J1. rewrite J1. reflexivity. }
    split.
    { intros n v V. destruct (NEW n v V) as [X Y]. split; [exact Y|]. exists (mk v). split; [exact X|]. apply assoc_in in V. apply (MK _ V). }
    intros pos P. unfold data_at, cm'. cbn [p_cm p_data cm_dims]. rewrite map_app. apply Gb.
    assert (Q : forall e, In e new -> 0 <= pos (fst e) < newlen (snd e)) by (intros [n v] E; apply P, in_assoc; auto).
    clear - Q. induction new as [|e t IH]; cbn; constructor; [apply Q; left; reflexivity|]. apply IH. intros; apply Q; right; assumption.
Qed.
