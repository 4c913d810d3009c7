(** Tapering: taper as a whole. *)
From Verif Require Import Base BaseFacts CoordModel CoordSpec CoordProofs CoordProofs2 CoordProofs3 CoordProofs5
  NdModel NdSpec NdProofs FrameModel ChunkModel CmModel CmSpec CmProofs CmProofs3 CmProofs4 CmProofs13 ProcModel ProcProofs
  TaperModel TaperSpec TaperProofs TaperProofs2.
From Coq Require Import Strings.String QArith Qabs Lia ZArith Sorted.
Local Open Scope Z_scope.
Local Open Scope list_scope.

Lemma shape_axis {A} (p : patch A) ax d c : wf_patch p -> nth_error (cm_dims (p_cm p)) ax = Some d ->
  assoc d (cm_coords (p_cm p)) = Some (M1 c) -> nth_error (nd_shape (p_data p)) ax = Some (c_len c).
Proof.
  intros W D C. pose proof (wp_shape _ W) as F. revert D. generalize dependent ax.
  induction F as [|x m ds s H F IH]; intros ax D; [destruct ax; discriminate|].
  destruct ax as [|ax]; cbn in D |- *; [|apply IH; exact D].
  injection D as ->. destruct H as (c' & E & <-). rewrite C in E. injection E as <-. reflexivity.
Qed.

Lemma c_len_ints c : wf_coord c -> upward c -> c_len c = zlen (c_ints c).
Proof.
  intros W U. destruct c as [r|k v|k v|n]; cbn in *; try contradiction; [|reflexivity].
  rewrite zlen_r_values by exact W. reflexivity.
Qed.
Lemma count_le f l : 0 <= count f l <= zlen l.
Proof.
  unfold count. split; [apply zlen_nonneg|]. induction l as [|x l IH]; cbn [filter]; [reflexivity|].
  destruct (f x); rewrite ?zlen_cons; lia.
Qed.
Lemma count_pos f l x : In x l -> f x = true -> 1 <= count f l.
Proof.
  intros I F. unfold count. assert (J : In x (filter f l)) by (apply filter_In; auto).
  destruct (filter f l); [destruct J|]. rewrite zlen_cons. pose proof (zlen_nonneg l0). lia.
Qed.

Section Taper.
Context {A : Type} (mul : A -> Q -> A) (win : string -> option (Z -> list Q)).

Section One.
Context (p : patch A) (wt : string) (w : Z -> list Q) (ax : nat) (d : string) (c : coord) (mn mx : Z)
  (lo hi : option tamount) (k1 k2 : Z).
Context (W : wf_patch p) (Ww : win wt = Some w) (Wd : window w)
  (D : nth_error (cm_dims (p_cm p)) ax = Some d) (C : assoc d (cm_coords (p_cm p)) = Some (M1 c))
  (U : upward c) (N : 2 <= c_len c) (L : is_least mn (c_ints c)) (G : is_greatest mx (c_ints c))
  (H1 : start_samples c mn mx lo k1) (H2 : end_samples c mn mx hi k2).

Let n := c_len c.
Lemma tp_wf : wf_coord c.
Proof. apply (wf_vals _ (wp_cm _ W) _ _ C). Qed.
Lemma tp_dur : coord_range c false = Ok (mx - mn).
Proof.
  assert (K : concrete c) by (destruct c; cbn in *; auto).
  unfold coord_range. rewrite andb_false_r, (c_min_least _ _ tp_wf K L), (c_max_greatest _ _ tp_wf K G). destruct c; reflexivity.
Qed.
Lemma tp_pos : 0 <= mx - mn.
Proof. destruct L as [I _], G as [_ J]. specialize (J _ I). lia. Qed.

Definition given1 (o : option tamount) (s : option Z) : Prop := match o, s with None, None | Some _, Some _ => True | _, _ => False end.

Lemma tp_lo : exists a c', opt_amount c (mx - mn) lo = Ok a /\ given a = given lo /\
  c_select c true None a = Ok (c', simple_slice None (match lo with Some _ => Some k1 | None => None end)).
Proof.
  unfold start_samples in H1. destruct lo as [v|].
  - destruct H1 as (a & Am & Ba & K). destruct (sel_lo c mn mx a tp_wf U N L G Ba) as [c' E].
    exists (Some a), c'. cbn [opt_amount]. rewrite (amount_ok _ _ _ _ Am tp_pos). split; [reflexivity|]. split; [reflexivity|].
    rewrite E, K. reflexivity.
  - destruct (sel_none c tp_wf U N) as [c' E]. exists None, c'. split; [reflexivity|]. split; [reflexivity|exact E].
Qed.
Lemma tp_hi : exists b c', opt_amount c (mx - mn) hi = Ok b /\ given b = given hi /\
  c_select c true (option_map Z.opp b) None = Ok (c', simple_slice (match hi with Some _ => if k2 <? n then Some (n - k2) else None | None => None end) None).
Proof.
  unfold end_samples in H2. destruct hi as [v|].
  - destruct H2 as (b & Am & Bb & K). destruct (sel_hi c mn mx b tp_wf U N L G Bb) as [c' E].
    exists (Some b), c'. cbn [opt_amount]. rewrite (amount_ok _ _ _ _ Am tp_pos). split; [reflexivity|]. split; [reflexivity|].
    cbn [option_map]. unfold hi_cut in E. rewrite <- K in E. exact E.
  - destruct (sel_none c tp_wf U N) as [c' E]. exists None, c'. split; [reflexivity|]. split; [reflexivity|exact E].
Qed.
Lemma tp_k1 : 0 <= k1 <= n.
Proof.
  unfold n. rewrite (c_len_ints c tp_wf U). unfold start_samples in H1. destruct lo as [v|]; [|pose proof (zlen_nonneg (c_ints c)); lia].
  destruct H1 as (a & _ & _ & ->). apply count_le.
Qed.
Lemma tp_k2 : 0 <= k2 <= n.
Proof.
  unfold n. rewrite (c_len_ints c tp_wf U). unfold end_samples in H2. destruct hi as [v|]; [|pose proof (zlen_nonneg (c_ints c)); lia].
  destruct H2 as (a & _ & _ & ->). apply count_le.
Qed.

Lemma tp_axis : axis_of (p_cm p) d = Ok ax.
Proof. unfold axis_of. rewrite (index_of_nth _ _ _ (wf_dims _ (wp_cm _ W)) D). reflexivity. Qed.

Lemma taper_changes : k1 + k2 <= n -> k2 < n ->
  exists q, pt_taper mul win p wt [(d, (lo, hi))] = Ok q /\ changed_along p q ax (tapered mul w n k1 k2).
Proof.
  intros S1 S2. unfold pt_taper. rewrite Ww, (one_dim_ok _ _ _ _ D). cbn [bind fst snd]. rewrite tp_axis. cbn [bind].
  rewrite C. unfold taper_slices. rewrite tp_dur. cbn [bind fst snd].
  destruct tp_lo as (a & c1 & E1 & G1 & X1). destruct tp_hi as (b & c2 & E2 & G2 & X2).
  rewrite E1. cbn [bind]. rewrite E2. cbn [bind]. rewrite X1. cbn [bind]. rewrite X2. cbn [bind fst snd slice_of simple_slice].
  pose proof (shape_axis p ax d c W D C) as SA. fold n in SA. rewrite SA. pose proof tp_k1. pose proof tp_k2.
  destruct (Z.ltb_spec k2 n); [|lia].
  unfold validate_windows. cbn [sl_stop sl_start fst snd].
  rewrite G1. replace (given (option_map Z.opp b)) with (given hi) by (rewrite <- G2; destruct b; reflexivity).
  assert (V : exists ok : result unit, ok = Ok tt /\
    (if given lo && match (match lo with Some _ => Some k1 | None => None end) with Some i => i <? 0 | None => true end
        || given hi && match (match hi with Some _ => Some (n - k2) | None => None end) with Some i => n <? i | None => true end
     then Err ParameterError
     else match (match lo with Some _ => Some k1 | None => None end) with
          | Some i => match (match hi with Some _ => Some (n - k2) | None => None end) with
                      | Some j => if j <? i then Err ParameterError else Ok tt | None => Ok tt end
          | None => Ok tt end) = ok).
  { exists (Ok tt). split; [reflexivity|]. destruct lo, hi; cbn [given andb orb];
    repeat match goal with |- context[?x <? ?y] => destruct (Z.ltb_spec x y); try lia end; reflexivity. }
  destruct V as (ok & -> & V). rewrite V. clear V. cbn [bind].
  (* the taper at the start *)
  assert (T1 : exists a1, match a with
                       | None => Ok (p_data p)
                       | Some _ => match (match lo with Some _ => Some k1 | None => None end) with
                          | Some val => scale_slice mul (p_data p) ax (mkSlice None (match lo with Some _ => Some k1 | None => None end) None)
                             (py_take (w (2 * val)) None (Some val))
                          | None => Err TypeError end
                       end = Ok a1 /\
               changed_nd (p_data p) a1 ax (fun i x => if i <? k1 then match rising w k1 i with Some y => mul x y | None => x end else x)).
  { destruct lo as [v|], a as [a|]; try discriminate G1.
    - destruct (Wd (2 * k1)) as [WL _]; [lia|]. destruct (take_first (w (2 * k1)) k1) as [TL TN]; [lia|].
      destruct (scale_spec mul (p_data p) ax n (mkSlice None (Some k1) None) 0 k1 (py_take (w (2 * k1)) None (Some k1)) (wp_nd _ W) SA)
        as (a1 & E & Ch); try lia.
      { rewrite simple_slice_positions by (try discriminate; try lia; intros x [= <-]; lia). cbn [opt_or]. f_equal.
        rewrite (filter_ext _ (fun i => (0 <=? i) && (i <=? k1 - 1))) by (intros; lia). rewrite filter_interval by lia. do 2 f_equal; lia. }
      exists a1. split; [exact E|]. eapply changed_ext; [exact SA|exact Ch|]. intros i x I. cbv beta. unfold scaled, rising.
      destruct (Z.leb_spec 0 i); [|lia]. cbn [andb]. destruct (Z.ltb_spec i k1); [|reflexivity].
      rewrite Z.sub_0_r, TN by lia. reflexivity.
    - exists (p_data p). split; [reflexivity|]. eapply changed_ext; [exact SA|exact (changed_refl _ _ _ (wp_nd _ W) SA)|].
      intros i x I. cbv beta. unfold start_samples in H1. destruct (Z.ltb_spec i k1); [lia|reflexivity]. }
  destruct T1 as (a1 & T1 & Ch1). rewrite T1. cbn [bind].
  pose proof Ch1 as (Sh1 & Wn1 & _).
  assert (T2 : exists a2, match option_map Z.opp b with
                       | None => Ok a1
                       | Some _ => match (match hi with Some _ => Some (n - k2) | None => None end) with
                          | Some i => scale_slice mul a1 ax (mkSlice (match hi with Some _ => Some (n - k2) | None => None end) None None)
                             (py_take (w (2 * (n - i))) (Some (n - i)) None)
                          | None => Err TypeError end
                       end = Ok a2 /\
               changed_nd a1 a2 ax (fun i x => if n - k2 <=? i then match falling w k2 (i - (n - k2)) with Some y => mul x y | None => x end else x)).
  { assert (SA1 : nth_error (nd_shape a1) ax = Some n) by (rewrite Sh1; exact SA).
    destruct hi as [v|], b as [b|]; try discriminate G2; cbn [option_map].
    - destruct (Wd (2 * k2)) as [WL _]; [lia|]. replace (n - (n - k2)) with k2 by lia.
      destruct (take_from (w (2 * k2)) k2) as [TL TN]; [lia|].
      destruct (scale_spec mul a1 ax n (mkSlice (Some (n - k2)) None None) (n - k2) n (py_take (w (2 * k2)) (Some k2) None) Wn1 SA1)
        as (a2 & E & Ch); try lia.
      { rewrite simple_slice_positions by (try discriminate; try lia; intros x [= <-]; lia). cbn [opt_or]. f_equal.
        rewrite (filter_ext _ (fun i => (n - k2 <=? i) && (i <=? n - 1))) by (intros; lia). rewrite filter_interval by lia. do 2 f_equal; lia. }
      exists a2. split; [exact E|]. eapply changed_ext; [exact SA1|exact Ch|]. intros i x I. cbv beta. unfold scaled, falling.
      destruct (Z.ltb_spec i n); [|lia]. rewrite andb_true_r. destruct (Z.leb_spec (n - k2) i); [|reflexivity].
      rewrite TN by lia. reflexivity.
    - exists a1. split; [reflexivity|]. eapply changed_ext; [exact SA1|exact (changed_refl _ _ _ Wn1 SA1)|].
      intros i x I. cbv beta. unfold end_samples in H2. destruct (Z.leb_spec (n - k2) i); [lia|reflexivity]. }
  destruct T2 as (a2 & T2 & Ch2). rewrite T2. cbn [bind].
  pose proof (changed_trans _ _ _ _ _ _ Ch1 Ch2) as Ch. pose proof Ch as (Sh & Wn & _).
  destruct (new_patch_ok (p_cm p) a2 (wp_cm _ W) Wn (wp_some _ W)) as [E _].
  { rewrite Sh. apply (wp_shape _ W). }
  rewrite E. eexists. split; [reflexivity|]. split; [reflexivity|]. cbn [p_data].
  eapply changed_ext; [exact SA|exact Ch|]. intros i x I. cbv beta. unfold tapered.
  destruct (Z.ltb_spec i k1), (Z.leb_spec (n - k2) i); try lia; reflexivity.
Qed.

Lemma taper_refuses : n < k1 + k2 \/ n <= k2 -> pt_taper mul win p wt [(d, (lo, hi))] = Err ParameterError.
Proof.
  intros S. unfold pt_taper. rewrite Ww, (one_dim_ok _ _ _ _ D). cbn [bind fst snd]. rewrite tp_axis. cbn [bind].
  rewrite C. unfold taper_slices. rewrite tp_dur. cbn [bind fst snd].
  destruct tp_lo as (a & c1 & E1 & G1 & X1). destruct tp_hi as (b & c2 & E2 & G2 & X2).
  rewrite E1. cbn [bind]. rewrite E2. cbn [bind]. rewrite X1. cbn [bind]. rewrite X2. cbn [bind fst snd slice_of simple_slice].
  pose proof (shape_axis p ax d c W D C) as SA. fold n in SA. rewrite SA. pose proof tp_k1. pose proof tp_k2. fold n in N.
  unfold validate_windows. cbn [sl_stop sl_start fst snd].
  rewrite G1. replace (given (option_map Z.opp b)) with (given hi) by (rewrite <- G2; destruct b; reflexivity).
  unfold start_samples in H1. unfold end_samples in H2.
  destruct lo, hi; cbn [given andb orb];
    repeat match goal with |- context[?x <? ?y] => destruct (Z.ltb_spec x y); cbn [orb bind]; try lia end; first [reflexivity|exfalso; lia].
Qed.
End One.

(** An amount past the dimension. *)
Lemma taper_too_long (p : patch A) wt w ax d c mn mx v a hi k2 : wf_patch p -> win wt = Some w ->
  nth_error (cm_dims (p_cm p)) ax = Some d -> assoc d (cm_coords (p_cm p)) = Some (M1 c) ->
  upward c -> 2 <= c_len c -> is_least mn (c_ints c) -> is_greatest mx (c_ints c) ->
  amounts c (mx - mn) v a -> reach c mn mx <= a -> end_samples c mn mx hi k2 ->
  pt_taper mul win p wt [(d, (Some v, hi))] = Err ParameterError.
Proof.
  intros W Ww D C U N L G Am R H2. pose proof (tp_wf p d c W C) as Wc. pose proof (tp_pos c mn mx L G) as P.
  unfold pt_taper. rewrite Ww, (one_dim_ok _ _ _ _ D). cbn [bind fst snd]. rewrite (tp_axis p ax d W D). cbn [bind].
  rewrite C. unfold taper_slices. rewrite (tp_dur p d c mn mx None hi 0 k2 W C U N L G eq_refl H2). cbn [bind fst snd].
  destruct (tp_hi p d c mn mx hi k2 W C U N L G H2) as (b & c2 & E2 & G2 & X2).
  assert (A0 : 0 <= a). { unfold reach in R. destruct c as [r| | |]; cbn in U; lia. }
  destruct (sel_lo_gen c mn mx a Wc U N L G A0) as [c1 X1]. destruct (Z.ltb_spec a (reach c mn mx)); [lia|].
  cbn [opt_amount]. rewrite (amount_ok _ _ _ _ Am P). cbn [bind]. rewrite E2. cbn [bind]. rewrite X1. cbn [bind]. rewrite X2.
  cbn [bind fst snd slice_of simple_slice]. rewrite (shape_axis p ax d c W D C). reflexivity.
Qed.

Lemma taper_no_window p wt kw : win wt = None -> pt_taper mul win p wt kw = Err ParameterError.
Proof. intros E. unfold pt_taper. rewrite E. reflexivity. Qed.
Lemma taper_no_dim p wt w d v : win wt = Some w -> ~ In d (cm_dims (p_cm p)) -> pt_taper mul win p wt [(d, v)] = Err ParameterError.
Proof.
  intros E X. unfold pt_taper. rewrite E. unfold one_dim. cbn [filter fst]. apply mem_false in X. rewrite X. reflexivity.
Qed.
End Taper.
