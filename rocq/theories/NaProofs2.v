(** Lemmas behind NaProps.v: filling and choosing. *)
From Verif Require Import Base BaseFacts CoordModel CoordSpec CoordProofs CoordProofs2 CoordProofs3
  CoordProofs4 CoordProofs5 NdModel NdSpec NdProofs NdProofs2 NdProofs3 FrameModel FrameProofs5 ChunkModel CmModel CmSpec
  CmProofs CmProofs2 CmProofs3 CmProofs4 CmProofs5 CmProofs8 CmProofs10 CmProofs12 CmProofs13 CmProofs15
  BinOpModel BinOpSpec BinOpProofs BinOpProofs2 BinOpProofs3 BinOpProofs4 BinOpProofs5 BinOpProofs6 BinOpProofs7 NaModel NaSpec NaProofs.
From Coq Require Import Strings.String ZifyBool Sorting.Sorted.
Ltac Zify.zify_post_hook ::= Z.div_mod_to_equations.
Local Open Scope Z_scope.
Local Open Scope list_scope.

Lemma same_shape {A B} (p : patch A) (a : nd B) : wf_patch p -> wf_nd a -> nd_shape a = nd_shape (p_data p) ->
  new_patch (p_cm p) a = Ok (mkPatch (p_cm p) a) /\ wf_patch (mkPatch (p_cm p) a).
Proof. intros W Wa S. apply new_patch_ok; [apply W|exact Wa|apply W|rewrite S; apply W]. Qed.

Lemma fillna_ok {A} (nonfinite isnull : A -> bool) (p : patch A) v (inf : bool) : wf_patch p ->
  exists p', pt_fillna nonfinite isnull p v inf = Ok p' /\
    changed p p' (fun x => if (if inf then nonfinite x else isnull x) then v else x).
Proof.
  intros W. unfold pt_fillna, nullish.
  destruct (same_shape p (mkNd (nd_shape (p_data p)) (map (fun x => if (if inf then nonfinite else isnull) x then v else x) (nd_flat (p_data p)))) W) as [EP WP];
    [|reflexivity|].
  { destruct (wp_nd _ W) as [P L]. split; cbn; [exact P|]. rewrite zlen_map. exact L. }
  eexists. split; [exact EP|]. split; [reflexivity|]. split; [reflexivity|]. split; [exact WP|].
  intros ix. cbn [p_data]. unfold nd_get. cbn. destruct (ravel _ ix); [|reflexivity]. rewrite znth_map.
  destruct (znth (nd_flat (p_data p)) z); [|reflexivity]. cbn. destruct inf; reflexivity.
Qed.
Lemma full_ok {A} (p : patch A) v : wf_patch p -> exists p', pt_full p v = Ok p' /\ changed p p' (fun _ => v).
Proof.
  intros W. unfold pt_full. destruct (wp_nd _ W) as [P L]. pose proof (zlen_nonneg (nd_flat (p_data p))) as NN.
  destruct (same_shape p (mkNd (nd_shape (p_data p)) (repeat v (Z.to_nat (size (nd_shape (p_data p)))))) W) as [EP WP]; [|reflexivity|].
  { split; cbn [nd_shape nd_flat]; [exact P|]. rewrite L in NN. unfold zlen. rewrite repeat_length. apply Z2Nat.id. exact NN. }
  eexists. split; [exact EP|]. split; [reflexivity|]. split; [reflexivity|]. split; [exact WP|].
  intros ix. cbn [p_data]. unfold nd_get. cbn. destruct (ravel _ ix) as [k|]; [|reflexivity].
  assert (R : repeat v (Z.to_nat (size (nd_shape (p_data p)))) = map (fun _ => v) (nd_flat (p_data p))).
  { rewrite <- L. unfold zlen. rewrite Nat2Z.id. generalize (nd_flat (p_data p)). intros l. induction l; cbn; congruence. }
  rewrite R, znth_map. reflexivity.
Qed.

(** ** where *)
Lemma where_data {A} (c : nd bool) (a : nd A) v ds (l1 l2 : string -> Z) : NoDup ds -> wf_nd a -> wf_nd c ->
  nd_shape a = map l1 ds -> nd_shape c = map l2 ds -> (forall d, In d ds -> 0 <= l1 d /\ 0 <= l2 d /\ bcast_len (l1 d) (l2 d) = Some (l1 d)) ->
  exists r, np_where c a (mkNd [] [v]) = Ok r /\ wf_nd r /\ nd_shape r = map l1 ds /\
    forall pos, (forall d, In d ds -> 0 <= pos d < l1 d) ->
      exists b x, nd_get c (map (squash l2 pos) ds) = Some b /\ nd_get a (map pos ds) = Some x /\
        nd_get r (map pos ds) = Some (if b : bool then x else v).
Proof.
  intros ND Wa Wc Sa Sc H.
  destruct (nd_map2_named pair c a ds l2 l1 l1 ND Wc Wa Sc Sa) as (ca & E1 & W1 & S1 & G1).
  { intros d J. destruct (H d J) as (H1 & H2 & H3). split; [exact H2|]. split; [exact H1|].
    apply bcast_len_spec in H3. unfold bcast_len. destruct (Z.eqb_spec (l2 d) (l1 d)) as [->|]; [reflexivity|].
    destruct (Z.eqb_spec (l2 d) 1); [reflexivity|]. lia. }
  assert (Wv : wf_nd (mkNd [] [v])) by (split; [constructor|reflexivity]).
  destruct (nd_map2_tail (fun (x : bool * A) (y : A) => if fst x then snd x else y) ca (mkNd [] [v]) ds [] l1 l1) as (r & E2 & W2 & S2 & G2);
    try (rewrite ?app_nil_r; first [assumption|reflexivity|intros d []]). rewrite app_nil_r in *.
  exists r. split; [unfold np_where; rewrite E1; exact E2|]. split; [exact W2|]. split; [exact S2|].
  intros pos P. destruct (G1 pos P) as (b & x & B & X & Y). destruct (G2 pos P) as ((b' & x') & v' & Y' & V & R).
  rewrite Y in Y'. injection Y' as <- <-. cbn [map] in V. cbn in V. injection V as <-. cbn [fst snd] in R.
  exists b, x. split; [exact B|]. split; [|exact R]. rewrite <- X. f_equal. apply map_ext_in. intros d J. specialize (P d J).
  unfold squash. destruct (Z.eqb_spec (l1 d) 1); lia.
Qed.

Lemma where_array_ok {A} argsort (p : patch A) (c : nd bool) v : wf_patch p -> wf_nd c -> nd_shape c = nd_shape (p_data p) ->
  exists r, pt_where argsort p (OpArray c) (OpArray (mkNd [] [v])) = Ok r /\ wf_patch r /\ p_cm r = p_cm p /\
    nd_shape (p_data r) = nd_shape (p_data p) /\
    forall ix, inb (nd_shape (p_data p)) ix -> exists b x, nd_get c ix = Some b /\ nd_get (p_data p) ix = Some x /\
      nd_get (p_data r) ix = Some (if b : bool then x else v).
Proof.
  intros W Wc S. pose proof (wf_dims _ (wp_cm _ W)) as ND.
  set (l := fun d => match assoc d (cm_coords (p_cm p)) with Some (M1 c) => c_len c | _ => 0 end).
  assert (SP : nd_shape (p_data p) = map l (cm_dims (p_cm p))).
  { apply shape_of; [exact W|]. intros d J. destruct (wf_dim_coord _ d (wp_cm _ W) J) as (c0 & E & _). exists c0. unfold l. rewrite E. auto. }
  destruct (where_data c (p_data p) v (cm_dims (p_cm p)) l l ND (wp_nd _ W) Wc SP) as (r & E & Wr & Sr & G); [congruence| |].
  { intros d J. destruct (wf_dim_coord _ d (wp_cm _ W) J) as (c0 & E & Wc0 & _). assert (0 <= l d) by (unfold l; rewrite E; apply c_len_nonneg, Wc0).
    split; [assumption|]. split; [assumption|]. unfold bcast_len. rewrite Z.eqb_refl. reflexivity. }
  rewrite <- SP in Sr. destruct (same_shape p r W Wr Sr) as [EP WP].
  exists (mkPatch (p_cm p) r). cbn [p_cm p_data]. split.
  { unfold pt_where. cbn [align_operand bind fst snd op_data]. rewrite E. cbn [bind]. exact EP. }
  split; [exact WP|]. split; [reflexivity|]. split; [exact Sr|]. intros ix IB.
  destruct (by_name (cm_dims (p_cm p)) ix ND) as [pos ->]; [rewrite (inb_length _ _ IB), SP, map_length; reflexivity|].
  rewrite SP in IB. rewrite BinOpProofs.inb_map in IB. destruct (G pos IB) as (b & x & B & X & R). exists b, x. split; [|auto].
  rewrite <- B. f_equal. apply map_ext_in. intros d J. specialize (IB d J). unfold squash. destruct (Z.eqb_spec (l d) 1); lia.
Qed.

Section WherePatch.
Context {A : Type} (argsort : list Z -> list Z) (p : patch A) (q : patch bool) (v : A).
Hypothesis VA : valid_argsort argsort.
Hypothesis Wp : wf_patch p.
Hypothesis Wq : wf_patch q.
Hypothesis OP : operands (p_cm p) (p_cm q).
Hypothesis SUB : forall d, In d (cm_dims (p_cm q)) -> In d (cm_dims (p_cm p)).
Hypothesis NS : forall d c, dim_coord (p_cm p) d = Some c -> stretches c = false.

Lemma where_patch_ok : exists r vs, pt_where argsort p (OpPatch q) (OpArray (mkNd [] [v])) = Ok r /\
  combined (fun x (b : bool) => if b then x else v) p q r vs.
Proof.
  set (D := all_dims (cm_dims (p_cm p)) (cm_dims (p_cm q))).
  assert (NDD : NoDup D) by (apply all_dims_NoDup; [apply (wf_dims _ (wp_cm _ Wp))|apply (wf_dims _ (wp_cm _ Wq))]).
  assert (IND : forall d, In d D -> In d (cm_dims (p_cm p))) by (intros d J; apply in_all_dims in J as [J|J]; auto).
  destruct (pair_aligned argsort p q VA Wp Wq OP) as (p2 & q2 & ps1 & ps2 & vs & EA & L1 & L2 & CM & PR). fold D in L1, L2, PR.
  pose proof (ln_wf _ _ _ _ L1) as W1. pose proof (ln_wf _ _ _ _ L2) as W2. pose proof (ln_dims _ _ _ _ L1) as D1. pose proof (ln_dims _ _ _ _ L2) as D2.
  assert (FACT : forall d, In d D -> exists c1 c2, assoc d (cm_coords (p_cm p2)) = Some (M1 c1) /\ assoc d (cm_coords (p_cm q2)) = Some (M1 c2) /\
    wf_coord c1 /\ wf_coord c2 /\ c_len c1 = zlen (ps1 d) /\ c_len c2 = zlen (ps2 d) /\ dim_good p q ps1 ps2 vs d c1 c2).
  { intros d J. apply (dim_facts p p2 q q2 D ps1 ps2 vs Wp Wq L1 L2 d J); [apply (op_match _ _ OP)|apply PR, J]. }
  assert (BL : forall d, In d D -> bcast_len (zlen (ps1 d)) (zlen (ps2 d)) = Some (zlen (ps1 d))).
  { intros d J. destruct (FACT d J) as (c1 & c2 & C1 & C2 & Wc1 & Wc2 & N1 & N2 & (S & _ & G & _)).
    destruct (chosen_spec c1 c2 Wc1 Wc2 S) as (B1 & _ & _ & _ & _ & CH). rewrite <- N1, <- N2, B1. f_equal. apply CH.
    destruct (dim_coord_in _ d (wp_cm _ Wp) (IND d J)) as (c & E & _). apply (G c E), (NS d c E). }
  set (l1 := fun d => zlen (ps1 d)). set (l2 := fun d => zlen (ps2 d)).
  destruct (where_data (p_data q2) (p_data p2) v D l1 l2 NDD (wp_nd _ W1) (wp_nd _ W2)) as (a & EN & Wa & Sa & Ga).
  { rewrite <- D1. apply shape_of; [exact W1|]. rewrite D1. apply (ln_len _ _ _ _ L1). }
  { rewrite <- D2. apply shape_of; [exact W2|]. rewrite D2. apply (ln_len _ _ _ _ L2). }
  { intros d J. split; [apply zlen_nonneg|]. split; [apply zlen_nonneg|apply BL, J]. }
  assert (SP : nd_shape (p_data p2) = map l1 D).
  { rewrite <- D1. apply shape_of; [exact W1|]. rewrite D1. apply (ln_len _ _ _ _ L1). }
  destruct (same_shape p2 a W1 Wa) as [EP WP]; [congruence|].
  exists (mkPatch (p_cm p2) a), vs. split.
  { unfold pt_where. cbn [align_operand]. rewrite EA. cbn [bind fst snd op_data]. rewrite EN. cbn [bind]. exact EP. }
  split; cbn [p_cm]; [exact WP|exact D1|exact CM|..].
  - intros d J. rewrite D1 in J. destruct (FACT d J) as (c1 & c2 & C1 & C2 & Wc1 & Wc2 & N1 & N2 & (_ & _ & _ & _ & R & _)).
    exists (M1 c1). split; [exact C1|]. unfold result_coord. pose proof (PR d J) as P. unfold pairing in P.
    destruct (dim_coord_in _ d (wp_cm _ Wp) (IND d J)) as (c & E & E' & _). rewrite E in P |- *.
    destruct (ln_dim _ _ _ _ L1 d c (IND d J) E') as (x & X & Ca). rewrite C1 in X. injection X as <-.
    pose proof (NS d c E) as Sc. destruct (dim_coord (p_cm q) d) as [c'|] eqn:Eq.
    + rewrite Sc in *. cbn [orb] in P. destruct (stretches c') eqn:Sc'.
      * destruct P as [P _]. cbn. exists c1, (zrange (c_len c)). rewrite <- P. auto.
      * destruct (R c c' E eq_refl Sc Sc') as [R1 _]. exists c1. auto.
    + cbn. exists c1, (zrange (c_len c)). rewrite <- P. auto.
  - intros pos IS. unfold inside in IS. cbn [p_cm] in IS. rewrite D1 in *.
    assert (IB : forall d, In d D -> 0 <= pos d < l1 d).
    { intros d J. destruct (IS d J) as (n & N & I). destruct (FACT d J) as (c1 & c2 & C1 & _ & _ & _ & N1 & _).
      rewrite (dim_len_fun _ _ _ _ C1 N) in I. unfold l1. lia. }
    destruct (Ga pos IB) as (b & x & B & X & R).
    exists (fun d => zget (ps1 d) (pos d)), (fun d => zget (ps2 d) (squash l2 pos d)), x, b.
    assert (IN2 : forall d, In d D -> 0 <= squash l2 pos d < l2 d).
    { intros d J. specialize (BL d J). apply bcast_len_spec in BL. specialize (IB d J). unfold l1, l2, squash in *. destruct (Z.eqb_spec (zlen (ps2 d)) 1); lia. }
    split. { rewrite <- (ln_data _ _ _ _ L1) by (intros d J; apply IB, J). unfold data_at. rewrite D1. exact X. }
    split. { rewrite <- (ln_data _ _ _ _ L2) by (intros d J; apply IN2, J). unfold data_at. rewrite D2. exact B. }
    split. { unfold data_at. cbn [p_cm p_data]. rewrite D1. exact R. }
    intros d J. destruct (FACT d J) as (c1 & c2 & C1 & C2 & _ & _ & N1 & N2 & (_ & _ & _ & _ & _ & PU)).
    specialize (PU (pos d) (l1 d)). rewrite N1, N2 in PU. specialize (PU (BL d J) (IB d J)).
    unfold squash, l2. replace (if zlen (ps1 d) =? 1 then 0 else pos d) with (pos d) in PU; [exact PU|].
    specialize (IB d J). unfold l1 in IB. destruct (Z.eqb_spec (zlen (ps1 d)) 1); lia.
  - intros n m' N Q. rewrite D1 in N. destruct (ln_assoc _ _ _ _ L1 n m' N Q) as (m & M & Ca & _ & DM). exists m. auto.
  - intros n m ds N C0 M0. rewrite D1 in N. apply (ln_kept _ _ _ _ L1 n m ds N C0 M0).
Qed.
End WherePatch.

(** ** The remaining statements about dropna *)
Lemma dropna_left {A} (nonfinite isnull : A -> bool) (p p' : patch A) dim ax c c' how (inf : bool) i : wf_patch p -> plain_names (p_cm p) ->
  nth_error (cm_dims (p_cm p)) ax = Some dim -> assoc dim (cm_coords (p_cm p)) = Some (M1 c) ->
  pt_dropna nonfinite isnull p dim how inf = Ok p' ->
  assoc dim (cm_coords (p_cm p')) = Some (M1 c') -> 0 <= i < c_len c' ->
  let f := if inf then nonfinite else isnull in ~ lost how f (p_data p') ax i.
Proof.
  intros WP PN D E H E' I f. destruct (dropna_ok nonfinite isnull p dim ax c how inf WP PN D E) as (q & ps & H' & REM & RS).
  rewrite H in H'. injection H' as <-. destruct (left_coord p p' dim ax ps c WP D E RS) as (c1 & E1 & _ & L1).
  rewrite E' in E1. injection E1 as <-. rewrite L1 in I. apply (left_none f p p' dim ax ps c WP D E RS how i REM I).
Qed.
Lemma dropna_unknown {A} (nonfinite isnull : A -> bool) (p : patch A) dim how inf : ~ In dim (cm_dims (p_cm p)) ->
  pt_dropna nonfinite isnull p dim how inf = Err CoordError.
Proof.
  intros N. unfold pt_dropna, get_axis. replace (index_of dim (cm_dims (p_cm p))) with (@None nat); [reflexivity|].
  symmetry. induction (cm_dims (p_cm p)) as [|d t IH]; cbn [index_of]; [reflexivity|].
  destruct (String.eqb_spec dim d) as [->|]; [exfalso; apply N; left; reflexivity|].
  rewrite IH; [reflexivity|]. intros J. apply N. right. exact J.
Qed.
Lemma dropna_how {A} (nonfinite isnull : A -> bool) (p : patch A) dim how inf : how <> "any"%string ->
  pt_dropna nonfinite isnull p dim how inf = pt_dropna nonfinite isnull p dim "all" inf.
Proof. intros N. unfold pt_dropna, to_drop. apply String.eqb_neq in N. rewrite N. reflexivity. Qed.
