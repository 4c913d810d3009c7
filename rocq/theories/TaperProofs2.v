(** Tapering: scaling a slice, and taper as a whole. *)
From Verif Require Import Base BaseFacts CoordModel CoordSpec CoordProofs CoordProofs2 CoordProofs3 CoordProofs5
  NdModel NdSpec NdProofs FrameModel ChunkModel CmModel CmSpec CmProofs CmProofs3 CmProofs4 ProcModel ProcProofs TaperModel TaperSpec TaperProofs.
From Coq Require Import Strings.String QArith Qabs Lia ZArith Sorted.
Local Open Scope Z_scope.
Local Open Scope list_scope.

Lemma sel_lo_gen c mn mx a : wf_coord c -> upward c -> 2 <= c_len c ->
  is_least mn (c_ints c) -> is_greatest mx (c_ints c) -> 0 <= a ->
  exists c', c_select c true None (Some a) =
    Ok (c', simple_slice None (if a <? reach c mn mx then Some (lo_cut (c_ints c) (mn + a)) else None)).
Proof.
  intros W U N L G A. assert (C : concrete c) by (destruct c; cbn in *; auto).
  pose proof (c_min_least _ _ W C L) as E1. pose proof (c_max_greatest _ _ W C G) as E2.
  unfold reach. destruct c as [r|k v|k v|n]; cbn [upward c_len c_ints] in *; try contradiction.
  - cbn in E1, E2. injection E1 as <-. injection E2 as <-. apply (range_lo r W U a A).
  - destruct (mono_lo k v U N mn mx E1 E2 a A) as [c' E]. exists c'. rewrite E. do 3 f_equal.
    destruct (Z.leb_spec a (mx - mn)), (Z.ltb_spec a (mx - mn + 1)); try reflexivity; lia.
Qed.
Lemma sel_lo c mn mx a : wf_coord c -> upward c -> 2 <= c_len c ->
  is_least mn (c_ints c) -> is_greatest mx (c_ints c) -> 0 <= a < reach c mn mx ->
  exists c', c_select c true None (Some a) = Ok (c', simple_slice None (Some (lo_cut (c_ints c) (mn + a)))).
Proof.
  intros W U N L G A. destruct (sel_lo_gen c mn mx a W U N L G) as [c' E]; [lia|].
  destruct (Z.ltb_spec a (reach c mn mx)); [|lia]. eauto.
Qed.
Lemma sel_hi c mn mx b : wf_coord c -> upward c -> 2 <= c_len c ->
  is_least mn (c_ints c) -> is_greatest mx (c_ints c) -> 0 < b ->
  let k := hi_cut (c_ints c) (mx - b) in
  exists c', c_select c true (Some (- b)) None = Ok (c', simple_slice (if k <? c_len c then Some (c_len c - k) else None) None).
Proof.
  intros W U N L G A k. assert (C : concrete c) by (destruct c; cbn in *; auto).
  pose proof (c_min_least _ _ W C L) as E1. pose proof (c_max_greatest _ _ W C G) as E2. subst k.
  destruct c as [r|k v|k v|n]; cbn [upward c_len c_ints] in *; try contradiction.
  - cbn in E1, E2. injection E1 as <-. injection E2 as <-. apply (range_hi r W U b A).
  - apply (mono_hi k v U N mn mx E1 E2 b A).
Qed.
Lemma sel_none c : wf_coord c -> upward c -> 2 <= c_len c ->
  exists c', c_select c true None None = Ok (c', simple_slice None None).
Proof.
  intros W U N. destruct c as [r|k v|k v|n]; cbn [upward c_len c_select] in *; try contradiction.
  - unfold r_select. cbn [slice_tuple compat_value bind fst snd r_get_index].
    destruct (r_reverse_sorted r); unfold slice_degenerate; (destruct (Z.leb_spec (r_len r) 0); [lia|]);
    cbn; eexists; reflexivity.
  - destruct (m_select k v true None None) as [[c' ix]|e] eqn:E.
    + unfold m_select in E. cbn [slice_tuple compat_value bind fst snd] in E.
      rewrite (ascending_not_rev v U) in E. cbn [m_get_index] in E.
      destruct (slice_degenerate (zlen v) None None) eqn:D; [unfold slice_degenerate in D; lia|].
      destruct (np_index v _); [|discriminate]. destruct (get_coord_data k l); cbn [bind] in E; [|discriminate].
      injection E as <- <-. eexists; reflexivity.
    + exfalso. assert (V : v <> []) by (intros ->; cbn in N; lia).
      destruct (list_min v) as [mn|] eqn:E1; [|destruct v; [congruence|discriminate]].
      destruct (list_max v) as [mx|] eqn:E2; [|destruct v; [congruence|discriminate]].
      destruct (m_select_spec k v true None None mn mx V (or_introl U) E1 E2) as (o & X & _). congruence.
Qed.

(** ** Windows *)
Lemma take_first {V} (l : list V) k : 0 <= k <= zlen l ->
  zlen (py_take l None (Some k)) = k /\ forall i, 0 <= i < k -> znth (py_take l None (Some k)) i = znth l i.
Proof.
  intros B. unfold py_take, np_index. cbn [indexer_positions].
  rewrite simple_slice_positions; [|apply zlen_nonneg|discriminate|intros x [= <-]; lia]. cbn [opt_or].
  rewrite (filter_ext _ (fun i => (0 <=? i) && (i <=? k - 1))) by (intros; lia).
  rewrite filter_interval by lia.
  destruct (gather_ok l (map (fun j => 0 + j) (zrange (k - 1 - 0 + 1)))) as [r R].
  { intros i J. apply in_map_iff in J as (j & <- & J). apply in_zrange in J. lia. }
  rewrite R. split.
  - rewrite (gather_some_len _ _ _ R), zlen_map, zlen_zrange; lia.
  - intros i I. rewrite (gather_znth _ _ _ R), znth_map, znth_zrange.
    destruct (Z.leb_spec 0 i), (Z.ltb_spec i (k - 1 - 0 + 1)); try lia. cbn. f_equal.
Qed.
Lemma take_from {V} (l : list V) k : 0 <= k <= zlen l ->
  zlen (py_take l (Some k) None) = zlen l - k /\ forall i, 0 <= i < zlen l - k -> znth (py_take l (Some k) None) i = znth l (k + i).
Proof.
  intros B. unfold py_take, np_index. cbn [indexer_positions].
  rewrite simple_slice_positions; [|apply zlen_nonneg|intros x [= <-]; lia|discriminate]. cbn [opt_or].
  rewrite (filter_ext _ (fun i => (k <=? i) && (i <=? zlen l - 1))) by (intros; lia).
  rewrite filter_interval by lia.
  destruct (gather_ok l (map (fun j => k + j) (zrange (zlen l - 1 - k + 1)))) as [r R].
  { intros i J. apply in_map_iff in J as (j & <- & J). apply in_zrange in J. lia. }
  rewrite R. split.
  - rewrite (gather_some_len _ _ _ R), zlen_map, zlen_zrange; lia.
  - intros i I. rewrite (gather_znth _ _ _ R), znth_map, znth_zrange.
    destruct (Z.leb_spec 0 i), (Z.ltb_spec i (zlen l - 1 - k + 1)); try lia. reflexivity.
Qed.

(** ** Scaling *)
Lemma find_interval lo m i : find_pos i (map (fun k => lo + k) (zrange m)) = if (lo <=? i) && (i <? lo + m) then Some (i - lo) else None.
Proof.
  destruct (find_pos i (map (fun k => lo + k) (zrange m))) as [k|] eqn:F.
  - apply find_pos_some in F. rewrite znth_map, znth_zrange in F.
    destruct (Z.leb_spec 0 k), (Z.ltb_spec k m); cbn in F; try discriminate. injection F as <-.
    destruct (Z.leb_spec lo (lo + k)), (Z.ltb_spec (lo + k) (lo + m)); try lia. cbn. f_equal; lia.
  - apply find_pos_none in F. destruct (Z.leb_spec lo i), (Z.ltb_spec i (lo + m)); cbn; auto.
    exfalso. apply F. apply in_map_iff. exists (i - lo). split; [lia|]. apply in_zrange. lia.
Qed.

Section Scale.
Context {A : Type} (mul : A -> Q -> A).

Definition scaled (lo hi : Z) (w : list Q) (i : Z) (x : A) : A :=
  if (lo <=? i) && (i <? hi) then match znth w (i - lo) with Some y => mul x y | None => x end else x.

Definition changed_nd (a b : nd A) (ax : nat) (f : Z -> A -> A) : Prop :=
  nd_shape b = nd_shape a /\ wf_nd b /\
  forall ix, inb (nd_shape a) ix ->
    exists i x, nth_error ix ax = Some i /\ nd_get a ix = Some x /\ nd_get b ix = Some (f i x).

Lemma inb_axis s ix ax n : inb s ix -> nth_error s ax = Some n -> exists i, nth_error ix ax = Some i /\ 0 <= i < n.
Proof.
  revert ix ax. induction s as [|m s IH]; intros ix ax I E; [destruct ax; discriminate|].
  inversion I as [|m' i s' t B R]; subst. destruct ax as [|ax]; cbn in E.
  - injection E as <-. exists i. split; [reflexivity|exact B].
  - cbn. apply IH; assumption.
Qed.

Lemma scale_spec (a : nd A) ax n s lo hi w : wf_nd a -> nth_error (nd_shape a) ax = Some n ->
  0 <= lo -> lo <= hi -> hi <= n ->
  slice_positions n s = Some (map (fun k => lo + k) (zrange (hi - lo))) -> zlen w = hi - lo ->
  exists b, scale_slice mul a ax s w = Ok b /\ changed_nd a b ax (scaled lo hi w).
Proof.
  intros W Nx L1 L2 L3 SP LW. unfold scale_slice. rewrite Nx, SP.
  assert (LP : zlen (map (fun k => lo + k) (zrange (hi - lo))) = hi - lo) by (rewrite zlen_map, zlen_zrange; lia).
  rewrite LP, LW, Z.eqb_refl. cbn [orb negb].
  destruct (nd_build_total (nd_shape a) (fun ix =>
              match nth_error ix ax, nd_get a ix with
              | Some i, Some x =>
                  match find_pos i (map (fun k => lo + k) (zrange (hi - lo))) with
                  | Some k => option_map (mul x) (znth w (if hi - lo =? 1 then 0 else k))
                  | None => Some x
                  end
              | _, _ => None
              end)) as [b B].
  - apply W.
  - intros ix I. destruct (inb_axis _ _ _ _ I Nx) as (i & Ei & Bi). destruct (nd_get_total a ix W I) as [x Ex].
    rewrite Ei, Ex, find_interval. destruct ((lo <=? i) && (i <? lo + (hi - lo))) eqn:D; [|eexists; reflexivity].
    destruct (proj2 (znth_range w (if hi - lo =? 1 then 0 else i - lo))) as [y Y].
    { rewrite LW. destruct (Z.eqb_spec (hi - lo) 1); lia. }
    rewrite Y. eexists; reflexivity.
  - rewrite B. exists b. split; [reflexivity|]. apply nd_build_spec in B; [|apply W]. destruct B as (S & Wb & G).
    split; [exact S|]. split; [exact Wb|]. intros ix I. destruct (G ix I) as (y & F & Gy).
    destruct (inb_axis _ _ _ _ I Nx) as (i & Ei & Bi). destruct (nd_get_total a ix W I) as [x Ex].
    exists i, x. split; [exact Ei|]. split; [exact Ex|]. rewrite Gy. rewrite Ei, Ex, find_interval in F.
    unfold scaled. replace (lo + (hi - lo)) with hi in F by lia.
    destruct ((lo <=? i) && (i <? hi)) eqn:D; [|symmetry; exact F].
    replace (if hi - lo =? 1 then 0 else i - lo) with (i - lo) in F by (destruct (Z.eqb_spec (hi - lo) 1); lia).
    destruct (znth w (i - lo)); [symmetry; exact F|discriminate].
Qed.

Lemma changed_refl (a : nd A) ax n : wf_nd a -> nth_error (nd_shape a) ax = Some n -> changed_nd a a ax (fun _ x => x).
Proof.
  intros W Nx. split; [reflexivity|]. split; [exact W|]. intros ix I.
  destruct (inb_axis _ _ _ _ I Nx) as (i & Ei & Bi). destruct (nd_get_total a ix W I) as [x Ex]. eauto.
Qed.
Lemma changed_trans a b c ax f g : changed_nd a b ax f -> changed_nd b c ax g -> changed_nd a c ax (fun i x => g i (f i x)).
Proof.
  intros (S1 & W1 & G1) (S2 & W2 & G2). split; [congruence|]. split; [exact W2|]. intros ix I.
  destruct (G1 ix I) as (i & x & E & X & Y). destruct (G2 ix) as (i' & x' & E' & X' & Y'); [rewrite S1; exact I|].
  exists i, x. split; [exact E|]. split; [exact X|]. congruence.
Qed.
Lemma changed_ext a b ax n f g : nth_error (nd_shape a) ax = Some n -> changed_nd a b ax f ->
  (forall i x, 0 <= i < n -> f i x = g i x) -> changed_nd a b ax g.
Proof.
  intros Nx (S & W & G) H. split; [exact S|]. split; [exact W|]. intros ix I.
  destruct (G ix I) as (i & x & E & X & Y). exists i, x. split; [exact E|]. split; [exact X|]. rewrite Y, H; [reflexivity|].
  destruct (inb_axis _ _ _ _ I Nx) as (j & Ej & Bj). congruence.
Qed.
End Scale.

(** ** Amounts *)
Lemma amount_ok c dur v a : amounts c dur v a -> 0 <= dur -> taper_amount c dur v = Ok a.
Proof.
  intros [z|n d a' K N D B|n d a' K D B] P; cbn [taper_amount]; [reflexivity| |].
  - rewrite K. f_equal. rewrite Z.quot_div_nonneg by nia. symmetry. apply Z.div_unique with (n * dur - d * a'); nia.
  - rewrite K. rewrite B, Z.mul_comm, Z_mod_mult. cbn. f_equal. apply Z_div_mult. lia.
Qed.

Lemma one_dim_ok {V} dims d (v : V) ax : nth_error dims ax = Some d -> one_dim dims [(d, v)] = Ok (d, v).
Proof.
  intros H. unfold one_dim. cbn [filter fst]. replace (mem d dims) with true; [reflexivity|].
  symmetry. apply mem_In'. eapply nth_error_In; exact H.
Qed.
