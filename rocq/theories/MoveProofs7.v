(** Integers of any size in the Hampel filter (C82). *)
From Verif Require Import Base BaseFacts CoordModel NdModel NdSpec NdProofs FrameModel CmModel CmSpec MoveModel MoveSpec MoveProofs MoveProofs2 MoveProofs3 MoveProofs4 MoveProofs5 MoveProofs6.
From Coq Require Import Strings.String QArith Qabs ZifyBool Lia.
Local Open Scope Z_scope.
Local Open Scope list_scope.

Lemma rint_near z d : 0 < d -> let w := rint (Qmake z (Z.to_pos d)) in
  2 * Z.abs (z - w * d) <= d /\ (2 * Z.abs (z - w * d) = d -> Z.even w = true).
Proof.
  intros D. unfold rint. cbn [Qnum Qden]. rewrite Z2Pos.id by exact D. cbv zeta.
  pose proof (Z.div_mod z d ltac:(lia)) as E. pose proof (Z.mod_pos_bound z d D) as B. set (f := z / d) in *. set (r := z mod d) in *. clearbody f r.
  destruct (2 * r <? d) eqn:K1; [split; [|intros X]; lia|]. destruct (d <? 2 * r) eqn:K2; [split; [|intros X]; lia|].
  assert (2 * r = d) by lia. destruct (Z.even f) eqn:V.
  - split; [lia|]. intros _. exact V.
  - split; [lia|]. intros _. rewrite Z.even_add, V. reflexivity.
Qed.
Lemma f32_ok z : float32_of z (f32 z).
Proof.
  unfold f32. set (e := Z.log2 (Z.abs z) - 23). destruct (e <=? 0) eqn:K.
  - exists 0, z. rewrite Z.mul_1_r, Z.sub_diag. cbn [Z.abs]. repeat split; try lia.
    destruct (Z.eq_dec z 0) as [->|N]; [cbn; lia|]. pose proof (Z.log2_spec (Z.abs z) ltac:(lia)) as [_ U].
    assert (2 ^ Z.succ (Z.log2 (Z.abs z)) <= 2 ^ 24) by (apply Z.pow_le_mono_r; lia). lia.
  - assert (N : 0 < Z.abs z) by (destruct (Z.eq_dec z 0) as [->|]; [cbn in e; lia|lia]).
    pose proof (Z.log2_spec (Z.abs z) N) as [L U]. assert (P : 0 < 2 ^ e) by (apply Z.pow_pos_nonneg; lia).
    destruct (rint_near z (2 ^ e) P) as [A B]. set (m := rint (Qmake z (Z.to_pos (2 ^ e)))) in *. clearbody m.
    replace (Z.log2 (Z.abs z)) with (23 + e) in L, U by lia. replace (Z.succ (23 + e)) with (24 + e) in U by lia.
    rewrite Z.pow_add_r in L, U by lia. exists e, m. split; [lia|]. split; [reflexivity|]. split; [|split; [|split; [exact A|intros X; right; exact (B X)]]].
    + assert (Z.abs (m * 2 ^ e) <= 2 ^ 24 * 2 ^ e + 2 ^ e / 2) as F.
      { assert (Z.abs (z - m * 2 ^ e) <= 2 ^ e / 2) by (apply Z.div_le_lower_bound; lia). lia. }
      rewrite Z.abs_mul, (Z.abs_eq (2 ^ e)) in F by lia.
      assert (2 * (2 ^ e / 2) <= 2 ^ e) by (apply Z.mul_div_le; lia). nia.
    + right. assert (2 * (2 ^ e / 2) <= 2 ^ e) by (apply Z.mul_div_le; lia).
      assert (Z.abs (z - m * 2 ^ e) <= 2 ^ e / 2) by (apply Z.div_le_lower_bound; lia).
      assert (F : 2 ^ 23 * 2 ^ e - 2 ^ e / 2 <= Z.abs (m * 2 ^ e)) by lia.
      rewrite Z.abs_mul, (Z.abs_eq (2 ^ e)) in F by lia. nia.
Qed.
Lemma hampel_large bn h samples kw (p : patch Q) : wf_patch p -> windows_given p samples true 3 kw -> (0 < h)%Q ->
  (forall x, In x (nd_flat (p_data p)) -> exists z, x = inject_Z z) ->
  exists a q sizes, pt_hampel bn Ints (Some h) samples false kw p = Ok q /\ asked_sizes p samples true kw sizes /\ p_cm q = p_cm p /\
    nd_shape a = nd_shape (p_data p) /\
    (forall ix z, nd_get (p_data p) ix = Some (inject_Z z) -> exists w, float32_of z w /\ nd_get a ix = Some (inject_Z w)) /\
    despiked (box_medians MReflect 0 sizes) (1 # 2 ^ 23) h a (p_data q).
Proof.
  intros W G H T. destruct (window_size_ok p samples true 3 kw W ltac:(lia) G) as (s & E & A & P & _).
  set (a := nd_map (fun q => inject_Z (f32 (to_z q))) (p_data p)). exists a.
  assert (Wa : wf_nd a).
  { destruct (wp_nd _ W) as [S1 S2]. split; [exact S1|]. cbn. rewrite zlen_map. exact S2. }
  unfold pt_hampel. rewrite (threshold_pos h H), E. cbn [bind]. cbv zeta. fold a.
  assert (L : List.length s = List.length (nd_shape a)) by (cbn; rewrite (dims_shape p W); apply A).
  destruct (hampel_ok Ints h (fun x => opt_result (box_median MReflect 0 s x)) (box_medians MReflect 0 s) a Wa H) as (b & Eb & D); [apply box_meds; assumption|].
  rewrite Eb. cbn [bind].
  assert (X : forall v, In v (nd_flat b) -> exists z, v = inject_Z z).
  { intros v I. apply (despiked_in _ _ _ _ _ (fun x m u Rm Iu Ex => box_in s a m u Wa ltac:(subst x; exact Rm) Iu) D) in I. cbn in I. apply in_map_iff in I. destruct I as (y & <- & _). eauto. }
  rewrite nd_map_id. 2:{ intros x I. destruct (X x I) as (z & ->). rewrite rint_inject. reflexivity. }
  destruct (despiked_wf _ _ _ _ _ D) as [Wb Sb].
  rewrite same_shape by assumption. exists (mkPatch (p_cm p) b), s. split; [reflexivity|]. split; [exact A|]. split; [reflexivity|]. split; [reflexivity|]. split; [|exact D].
  intros ix z Z. exists (f32 z). split; [apply f32_ok|]. unfold nd_get, a in *. cbn [nd_shape nd_map nd_flat]. destruct (ravel (nd_shape (p_data p)) ix) as [k|]; [|discriminate].
  rewrite znth_map, Z. cbn. rewrite to_z_inject. reflexivity.
Qed.
