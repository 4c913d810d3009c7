(** Proofs for ratios of averages (C100). *)
From Verif Require Import Base BaseFacts CoordModel CoordSpec NdModel NdSpec NdProofs NdProofs2 NdProofs3 FrameModel ChunkModel CmModel CmSpec
  CmProofs CmProofs2 CmProofs3 ProcModel ProcSpec ProcProofs ProcProofs2 ProcProofs3 ProcProofs4 ProcProofs5 ProcProofs6 BinOpModel StaModel StaSpec.
From Coq Require Import Strings.String QArith Lia Lqa.
Local Open Scope Z_scope.
Local Open Scope list_scope.

Lemma bcast_rev_same s : bcast_rev s s = Some s.
Proof. induction s as [|n t IH]; [reflexivity|]. cbn. unfold bcast_len. rewrite Z.eqb_refl, IH. reflexivity. Qed.
Lemma bcast_ix_same s ix : inb s ix -> bcast_ix s ix = ix.
Proof.
  intros H. unfold bcast_ix. rewrite <- (rev_involutive ix) at 2. f_equal.
  assert (H' : Forall2 (fun n i => 0 <= i < n) (rev s) (rev ix)).
  { unfold inb in H. clear -H. induction H as [|n i s ix R F IH]; [constructor|]. cbn [rev]. apply Forall2_app; [exact IH|]. constructor; [exact R|constructor]. }
  induction H' as [|n i s' ix' R F IH]; [reflexivity|]. cbn [bcast_ix_rev]. rewrite IH. f_equal. destruct (Z.eqb_spec n 1); lia.
Qed.
Lemma map2_same {A B C} (op : A -> B -> C) (a : nd A) (b : nd B) : wf_nd a -> wf_nd b -> nd_shape b = nd_shape a ->
  exists c, nd_map2 op a b = Ok c /\ wf_nd c /\ nd_shape c = nd_shape a /\
    forall ix, inb (nd_shape a) ix -> exists x y, nd_get a ix = Some x /\ nd_get b ix = Some y /\ nd_get c ix = Some (op x y).
Proof.
  intros Wa Wb S. unfold nd_map2, broadcast_shapes. rewrite S, bcast_rev_same. cbn [option_map]. rewrite rev_involutive.
  assert (NN : Forall (fun n => 0 <= n) (nd_shape a)) by apply Wa.
  assert (T : forall ix, inb (nd_shape a) ix -> exists x y, nd_get a ix = Some x /\ nd_get b ix = Some y).
  { intros ix I. destruct (nd_get_total a ix Wa I) as [x X]. destruct (nd_get_total b ix Wb) as [y Y]; [rewrite S; exact I|]. exists x, y. auto. }
  destruct (nd_build_total (nd_shape a) (fun ix => match nd_get a (bcast_ix (nd_shape a) ix), nd_get b (bcast_ix (nd_shape a) ix) with Some x, Some y => Some (op x y) | _, _ => None end) NN) as [c E].
  { intros ix I. rewrite (bcast_ix_same _ _ I). destruct (T ix I) as (x & y & -> & ->). eauto. }
  rewrite E. exists c. destruct (nd_build_spec _ _ _ NN E) as (SC & WC & G). split; [reflexivity|]. split; [exact WC|]. split; [exact SC|].
  intros ix I. destruct (G ix I) as (z & Z1 & Z2). rewrite (bcast_ix_same _ _ I) in Z1. destruct (T ix I) as (x & y & X & Y). rewrite X, Y in Z1. exists x, y. split; [exact X|]. split; [exact Y|]. congruence.
Qed.

(** Without a step the coordinates stay. *)
Lemma rolling_cm {A} (p q : patch A) d w samples f nan : pt_rolling p d w None None false samples None f nan = Ok q -> p_cm q = p_cm p.
Proof.
  unfold pt_rolling. destruct (index_of d (cm_dims (p_cm p))) as [ax|]; [|discriminate]. destruct (assoc d (cm_coords (p_cm p))) as [[[r| | |]| |]|]; try discriminate.
  unfold window_step. destruct (count_of r samples w) as [k|]; [|discriminate]. cbn [bind fst snd]. destruct ((k =? 0) || (1 =? 0))%bool; [discriminate|].
  match goal with |- context [bind ?m _] => destruct m as [wins|] end; [|discriminate]. cbn [bind]. destruct (nd_windows _ _ _ _ _ _) as [b|]; [|discriminate].
  unfold rolled_coords. cbn. intros [= <-]. reflexivity.
Qed.
Lemma widths p dim r samples sta lta ws wl : rollable p dim r samples sta lta ws wl -> ws <= wl <= r_len r.
Proof.
  intros [_ _ _ _ St [C1 D1] [C2 D2] _ O _]. split; [|exact C2]. destruct samples; [lia|]. destruct St as [St|St]; [discriminate|]. unfold rounds_up in D1, D2. nia.
Qed.
Lemma one_roll p dim r samples sta lta ws wl win w : rollable p dim r samples sta lta ws wl -> counts r samples win w -> 1 <= w ->
  exists q, pt_rolling p dim win None None false samples None mean_of None = Ok q /\ p_cm q = p_cm p /\ wf_patch q /\
    forall pos, in_patch p pos -> (w - 1 <= pos dim -> exists vs, last_samples p dim pos w vs /\ data_at q pos = Some (mean_of vs)) /\ (pos dim < w - 1 -> data_at q pos = Some None).
Proof.
  intros R C W1. destruct R as [WP PN I E SS _ _ _ _ FIT]. pose proof (wf_vals _ (wp_cm _ WP) _ _ E) as WR. cbn in WR. pose proof WR as (_ & RL & _).
  assert (N1 : (r_len r + 1 - 1) / 1 = r_len r) by (rewrite Z.div_1_r; lia).
  destruct (pt_rolling_ok p dim r win None None false samples None mean_of None w 1 WP PN I E SS (conj C eq_refl) W1 ltac:(lia)) as (q & c' & Q & RO); [rewrite N1; exact FIT|].
  exists q. split; [exact Q|]. pose proof (rolling_cm _ _ _ _ _ _ _ Q) as CM. split; [exact CM|]. split; [apply (rf_wf _ _ _ _ _ (ro_refit _ _ _ _ _ _ _ _ _ _ RO))|].
  intros pos IP. assert (IQ : in_patch q pos) by (unfold in_patch; rewrite CM; exact IP). pose proof (ro_data _ _ _ _ _ _ _ _ _ _ RO pos IQ) as [D1 D2]. cbn zeta in D1, D2.
  assert (RP : pos dim < r_len r). { destruct (IP dim I) as (n & (c & Ec & Lc) & P). rewrite E in Ec. injection Ec as <-. cbn in Lc. lia. }
  assert (LO : forall e, label_offset e false w 1 = 0) by (intros []; reflexivity). rewrite LO in D1, D2. rewrite Z.mul_1_r, Z.add_0_r in D1, D2. split.
  - intros H. destruct D1 as (vs & Lv & Gv & Dv); [lia|]. exists vs. split; [split; [exact Lv|]; intros i Hi; apply Gv, Hi|exact Dv].
  - intros H. apply D2. left. exact H.
Qed.
Theorem stalta_ok p dim r samples sta lta ws wl : rollable p dim r samples sta lta ws wl ->
  exists q, pt_stalta p [(dim, [Some sta; Some lta])] samples = Ok q /\ p_cm q = p_cm p /\ wf_patch q /\
    forall pos, in_patch p pos ->
      (wl - 1 <= pos dim -> exists short long, last_samples p dim pos ws short /\ last_samples p dim pos wl long /\ data_at q pos = Some (divide (mean_of short) (mean_of long))) /\
      (pos dim < wl - 1 -> data_at q pos = Some None).
Proof.
  intros R. pose proof (widths _ _ _ _ _ _ _ _ R) as WW. pose proof (rb_some _ _ _ _ _ _ _ _ R) as W1.
  destruct (one_roll p dim r samples sta lta ws wl sta ws R (rb_sta _ _ _ _ _ _ _ _ R) W1) as (a & A & CA & WA & DA).
  destruct (one_roll p dim r samples sta lta ws wl lta wl R (rb_lta _ _ _ _ _ _ _ _ R) ltac:(lia)) as (b & B & CB & WB & DB).
  unfold pt_stalta, sta_args. rewrite (proj2 (Z.leb_gt _ _) (rb_order _ _ _ _ _ _ _ _ R)). cbn [bind fst snd]. rewrite A. cbn [bind]. rewrite B. cbn [bind].
  assert (SH : nd_shape (p_data b) = nd_shape (p_data a)).
  { pose proof (wp_shape _ WA) as F1. pose proof (wp_shape _ WB) as F2. rewrite CA in F1. rewrite CB in F2. revert F2. generalize (nd_shape (p_data b)). induction F1 as [|d n ds s X F IH]; intros s' F2; inversion F2; subst; [reflexivity|]. f_equal; [|auto].
    destruct X as (c & C & <-). match goal with H : dim_len _ d _ |- _ => destruct H as (c2 & C2 & <-) end. congruence. }
  destruct (map2_same divide (p_data a) (p_data b) (wp_nd _ WA) (wp_nd _ WB) SH) as (c & C & WC & SC & GC). rewrite C. cbn [bind].
  eexists. split; [reflexivity|]. cbn [p_cm]. split; [exact CA|]. split.
  { split; cbn [p_cm p_data]; [apply (wp_cm _ WA)|exact WC|apply (wp_some _ WA)|rewrite SC; apply (wp_shape _ WA)]. }
  intros pos IP.
  assert (IB : inb (nd_shape (p_data a)) (map pos (cm_dims (p_cm p)))).
  { pose proof (wp_shape _ WA) as F. rewrite CA in F. exact (within_inb _ _ _ _ F IP). }
  destruct (GC _ IB) as (x & y & X & Y & Z0).
  assert (XA : data_at a pos = Some x) by (unfold data_at; rewrite CA; exact X). assert (YB : data_at b pos = Some y) by (unfold data_at; rewrite CB; exact Y).
  assert (ZC : data_at (mkPatch (p_cm a) c) pos = Some (divide x y)) by (unfold data_at; cbn [p_cm p_data]; rewrite CA; exact Z0). rewrite ZC.
  destruct (DA pos IP) as [A1 A2], (DB pos IP) as [B1 B2]. split; intros H.
  - destruct A1 as (s & S1 & S2); [lia|]. destruct (B1 H) as (l & L1 & L2). exists s, l. split; [exact S1|]. split; [exact L1|]. congruence.
  - rewrite (B2 H) in YB. injection YB as <-. destruct x; reflexivity.
Qed.

(** Consequences *)
Lemma suffix p dim pos ws wl s l : 0 <= ws <= wl -> last_samples p dim pos ws s -> last_samples p dim pos wl l -> exists pre, l = pre ++ s.
Proof.
  intros W [Ls Gs] [Ll Gl]. exists (firstn (Z.to_nat (wl - ws)) l). rewrite <- (firstn_skipn (Z.to_nat (wl - ws)) l) at 1. f_equal.
  assert (LP : zlen (firstn (Z.to_nat (wl - ws)) l) = wl - ws) by (unfold zlen in *; rewrite firstn_length; lia).
  assert (LK : zlen (skipn (Z.to_nat (wl - ws)) l) = ws) by (unfold zlen in *; rewrite skipn_length; lia).
  apply znth_ext_len; [lia|]. intros i B. rewrite LK in B. rewrite Gs by lia. assert (X : znth l (wl - ws + i) = znth (skipn (Z.to_nat (wl - ws)) l) i).
  { rewrite <- (firstn_skipn (Z.to_nat (wl - ws)) l) at 1. rewrite znth_app, LP, (proj2 (Z.ltb_ge _ _)) by lia. f_equal. lia. }
  rewrite <- X, Gl by lia. do 2 f_equal. lia.
Qed.
Lemma window_all p dim pos w vs (P : option Q -> Prop) : (forall pos x, data_at p pos = Some x -> P x) -> last_samples p dim pos w vs -> Forall P vs.
Proof.
  intros H [L G]. apply Forall_forall. intros x I. apply in_znth in I as [i E]. assert (T : exists x, znth vs i = Some x) by eauto. apply znth_range in T. rewrite G in E by lia. eapply H, E.
Qed.
Lemma sum_app_val a b x y : sum_of a = Some x -> sum_of b = Some y -> exists z, sum_of (a ++ b) = Some z /\ (z == x + y)%Q.
Proof.
  revert x. induction a as [|[q|] t IH]; intros x A B; cbn in *; [|destruct (sum_of t) as [s|]|discriminate].
  - injection A as <-. exists y. split; [exact B|ring].
  - injection A as <-. destruct (IH s eq_refl B) as (z & -> & Z1). eexists. split; [reflexivity|]. rewrite Z1. ring.
  - discriminate.
Qed.
Lemma sum_nonneg l : Forall (fun x => exists v, x = Some v /\ 0 <= v)%Q l -> exists s, sum_of l = Some s /\ (0 <= s)%Q.
Proof.
  induction 1 as [|x t (v & -> & V) F (s & S1 & S2)]; [exists 0%Q; split; [reflexivity|lra]|]. cbn. rewrite S1. eexists. split; [reflexivity|]. lra.
Qed.
Lemma sum_const c l : Forall (fun x => exists v, x = Some v /\ v == c)%Q l -> exists s, sum_of l = Some s /\ (s == inject_Z (zlen l) * c)%Q.
Proof.
  induction 1 as [|x t (v & -> & V) F (s & S1 & S2)]; [exists 0%Q; split; [reflexivity|cbn; ring]|]. cbn [sum_of]. rewrite S1. eexists. split; [reflexivity|]. rewrite zlen_cons, inject_Z_plus, S2, V. change (inject_Z 1) with 1%Q. ring.
Qed.
Lemma inject_pos n : 1 <= n -> (0 < inject_Z n)%Q.
Proof. intros H. unfold Qlt. cbn. lia. Qed.
Theorem stalta_const p dim r samples sta lta ws wl c q pos : rollable p dim r samples sta lta ws wl -> pt_stalta p [(dim, [Some sta; Some lta])] samples = Ok q ->
  (forall pos x, data_at p pos = Some x -> exists v, x = Some v /\ v == c)%Q -> ~ (c == 0)%Q -> in_patch p pos -> wl - 1 <= pos dim -> exists y, data_at q pos = Some (Some y) /\ (y == 1)%Q.
Proof.
  intros R Q0 H C IP J. pose proof (widths _ _ _ _ _ _ _ _ R) as WW. pose proof (rb_some _ _ _ _ _ _ _ _ R) as W1. destruct (stalta_ok _ _ _ _ _ _ _ _ R) as (q' & Q1 & _ & _ & D). rewrite Q0 in Q1. injection Q1 as <-.
  destruct (D pos IP) as [D1 _]. destruct (D1 J) as (s & l & Ls & Ll & E). rewrite E.
  destruct (sum_const c s (window_all _ _ _ _ _ _ H Ls)) as (x & X1 & X2). destruct (sum_const c l (window_all _ _ _ _ _ _ H Ll)) as (y & Y1 & Y2).
  rewrite (proj1 Ls) in X2. rewrite (proj1 Ll) in Y2. pose proof (inject_pos ws W1) as Ps. pose proof (inject_pos wl ltac:(lia)) as Pl.
  unfold mean_of. rewrite X1, Y1, (proj1 Ls), (proj1 Ll). cbn [divide].
  assert (A : (x / inject_Z ws == c)%Q) by (rewrite X2; field; lra). assert (B : (y / inject_Z wl == c)%Q) by (rewrite Y2; field; lra).
  destruct (Qeq_bool (y / inject_Z wl) 0) eqn:Z0; [apply Qeq_bool_iff in Z0; rewrite B in Z0; contradiction|]. eexists. split; [reflexivity|]. rewrite A, B. field. exact C.
Qed.
Theorem stalta_bound p dim r samples sta lta ws wl q pos y : rollable p dim r samples sta lta ws wl -> pt_stalta p [(dim, [Some sta; Some lta])] samples = Ok q ->
  (forall pos x, data_at p pos = Some x -> exists v, x = Some v /\ 0 <= v)%Q -> in_patch p pos -> data_at q pos = Some (Some y) -> (0 <= y <= inject_Z wl / inject_Z ws)%Q.
Proof.
  intros R Q0 H IP Y. pose proof (widths _ _ _ _ _ _ _ _ R) as WW. pose proof (rb_some _ _ _ _ _ _ _ _ R) as W1. destruct (stalta_ok _ _ _ _ _ _ _ _ R) as (q' & Q1 & _ & _ & D). rewrite Q0 in Q1. injection Q1 as <-.
  destruct (D pos IP) as [D1 D2]. destruct (Z_lt_dec (pos dim) (wl - 1)) as [L|L]; [rewrite (D2 L) in Y; discriminate|]. destruct (D1 ltac:(lia)) as (s & l & Ls & Ll & E). rewrite E in Y.
  destruct (suffix p dim pos ws wl s l ltac:(lia) Ls Ll) as [pre Ep]. pose proof (window_all _ _ _ _ _ _ H Ll) as FL. rewrite Ep in FL. apply Forall_app in FL as [FP FS].
  destruct (sum_nonneg _ FP) as (a & A1 & A2). destruct (sum_nonneg _ FS) as (b & B1 & B2). destruct (sum_app_val _ _ _ _ A1 B1) as (z & Z1 & Z2). rewrite <- Ep in Z1.
  pose proof (inject_pos ws W1) as Ps. pose proof (inject_pos wl ltac:(lia)) as Pl. unfold mean_of in Y. rewrite B1, Z1, (proj1 Ls), (proj1 Ll) in Y. cbn [divide] in Y.
  destruct (Qeq_bool (z / inject_Z wl) 0) eqn:N; [discriminate|]. injection Y as <-.
  assert (NZ : ~ (z == 0)%Q). { intros T. apply Qeq_bool_neq in N. apply N. rewrite T. field. lra. }
  assert (PZ : (0 < z)%Q) by lra. 
  assert (EQ : (b / inject_Z ws / (z / inject_Z wl) == (b / z) * (inject_Z wl / inject_Z ws))%Q) by (field; split; [|split]; lra). rewrite EQ.
  assert (P1 : (0 < inject_Z wl / inject_Z ws)%Q) by (apply Qlt_shift_div_l; [exact Ps|lra]).
  assert (B0 : (0 <= b / z)%Q) by (apply Qle_shift_div_l; [exact PZ|lra]). assert (B3 : (b / z <= 1)%Q) by (apply Qle_shift_div_r; [exact PZ|lra]). nra.
Qed.
Lemma sum_scaled c l l' : Forall2 (fun a b => same_value b (scaled_by c a)) l l' -> same_value (sum_of l') (scaled_by c (sum_of l)).
Proof.
  induction 1 as [|a b t t' H F IH]; [cbn; ring|]. destruct a as [a|], b as [b|]; cbn in H; try contradiction; try exact I. cbn [sum_of]. destruct (sum_of t) as [x|], (sum_of t') as [y|]; cbn in *; try contradiction; try exact I. rewrite H, IH. ring.
Qed.
Lemma mean_scaled c l l' : Forall2 (fun a b => same_value b (scaled_by c a)) l l' -> same_value (mean_of l') (scaled_by c (mean_of l)).
Proof.
  intros F. pose proof (sum_scaled _ _ _ F) as S. assert (L : zlen l' = zlen l) by (unfold zlen; clear -F; induction F; cbn; lia). unfold mean_of. rewrite L. destruct (sum_of l), (sum_of l'); cbn in *; try contradiction; try exact I. rewrite S. unfold Qdiv. ring.
Qed.
Lemma divide_scaled c a b a' b' : ~ (c == 0)%Q -> same_value a' (scaled_by c a) -> same_value b' (scaled_by c b) -> same_value (divide a b) (divide a' b').
Proof.
  intros C A B. destruct a as [a|], a' as [a'|]; cbn in A; try contradiction; [|exact I]. destruct b as [b|], b' as [b'|]; cbn in B; try contradiction; [|exact I]. cbn.
  destruct (Qeq_bool b 0) eqn:Z1, (Qeq_bool b' 0) eqn:Z2; cbn; try exact I.
  - apply Qeq_bool_iff in Z1. apply Qeq_bool_neq in Z2. apply Z2. rewrite B, Z1. ring.
  - apply Qeq_bool_iff in Z2. apply Qeq_bool_neq in Z1. rewrite Z2 in B. symmetry in B. apply Qmult_integral in B as [B|B]; contradiction.
  - apply Qeq_bool_neq in Z1. rewrite A, B. field. split; assumption.
Qed.
Lemma windows_scaled c p p' dim pos w vs vs' : multiplied c p p' -> last_samples p dim pos w vs -> last_samples p' dim pos w vs' -> Forall2 (fun a b => same_value b (scaled_by c a)) vs vs'.
Proof.
  intros [_ M] [L G] [L' G']. assert (H : forall i a b, znth vs i = Some a -> znth vs' i = Some b -> same_value b (scaled_by c a)).
  { intros i a b A B. assert (T : exists x, znth vs i = Some x) by eauto. apply znth_range in T. rewrite G in A by lia. rewrite G' in B by lia. specialize (M (at_dim pos dim (pos dim - (w - 1) + i))). rewrite A, B in M. exact M. }
  assert (LL : List.length vs = List.length vs') by (unfold zlen in *; lia). clear -H LL. revert vs' H LL. induction vs as [|a t IH]; intros [|b t'] H LL; try discriminate; constructor.
  - apply (H 0); reflexivity.
  - apply IH; [|cbn in LL; lia]. intros i x y X Y. assert (T : exists x, znth t i = Some x) by eauto. apply znth_range in T. apply (H (i + 1)); rewrite znth_cons; replace (i + 1 =? 0) with false by (symmetry; apply Z.eqb_neq; lia); replace (i + 1 - 1) with i by lia; assumption.
Qed.
Theorem stalta_scaled p p' dim r samples sta lta ws wl c q q' pos : rollable p dim r samples sta lta ws wl -> rollable p' dim r samples sta lta ws wl -> multiplied c p p' -> ~ (c == 0)%Q ->
  pt_stalta p [(dim, [Some sta; Some lta])] samples = Ok q -> pt_stalta p' [(dim, [Some sta; Some lta])] samples = Ok q' -> in_patch p pos ->
  exists a b, data_at q pos = Some a /\ data_at q' pos = Some b /\ same_value a b.
Proof.
  intros R R' M C Q0 Q0' IP. destruct (stalta_ok _ _ _ _ _ _ _ _ R) as (? & Q1 & _ & _ & D). rewrite Q0 in Q1. injection Q1 as <-. destruct (stalta_ok _ _ _ _ _ _ _ _ R') as (? & Q1 & _ & _ & D'). rewrite Q0' in Q1. injection Q1 as <-.
  assert (IP' : in_patch p' pos) by (unfold in_patch; rewrite (proj1 M); exact IP). destruct (D pos IP) as [D1 D2]. destruct (D' pos IP') as [D1' D2']. destruct (Z_lt_dec (pos dim) (wl - 1)) as [L|L].
  - rewrite (D2 L), (D2' L). exists None, None. repeat split.
  - destruct (D1 ltac:(lia)) as (s & l & Ls & Ll & E). destruct (D1' ltac:(lia)) as (s' & l' & Ls' & Ll' & E'). rewrite E, E'. do 2 eexists. split; [reflexivity|]. split; [reflexivity|]. apply (divide_scaled c); [exact C| |]; apply mean_scaled; eapply windows_scaled; eassumption.
Qed.
Theorem stalta_refused p samples kw :
  (match kw with [(_, [_; _])] => False | _ => True end -> pt_stalta p kw samples = Err FilterValueError) /\
  (forall d, kw = [(d, [None; None])] -> pt_stalta p kw samples = Err FilterValueError) /\
  (forall d x, kw = [(d, [Some x; None])] \/ kw = [(d, [None; Some x])] -> pt_stalta p kw samples = Err TypeError) /\
  (forall d a b, kw = [(d, [Some a; Some b])] -> b <= a -> pt_stalta p kw samples = Err ParameterError) /\
  (forall d a b, kw = [(d, [Some a; Some b])] -> ~ In d (cm_dims (p_cm p)) -> pt_stalta p kw samples = Err ParameterError).
Proof.
  split; [|split; [|split; [|split]]].
  - intros H. unfold pt_stalta, sta_args. destruct kw as [|[d [|a [|b [|c t]]]] [|e t']]; try reflexivity; contradiction.
  - intros d ->. reflexivity.
  - intros d x [->| ->]; reflexivity.
  - intros d a b -> H. unfold pt_stalta, sta_args. rewrite (proj2 (Z.leb_le _ _) H). reflexivity.
  - intros d a b -> H. unfold pt_stalta, sta_args. destruct (b <=? a); [reflexivity|]. cbn [bind fst snd]. unfold pt_rolling. rewrite (proj2 (index_of_None d _) H). reflexivity.
Qed.
Lemma sum_some vs : exists s, sum_of (map Some vs) = Some s /\ (s == fold_right Qplus 0 vs)%Q.
Proof. induction vs as [|v t (s & S1 & S2)]; [exists 0%Q; split; reflexivity|]. cbn. rewrite S1. eexists. split; [reflexivity|]. rewrite S2. reflexivity. Qed.
Lemma sum_none vs : In None vs -> sum_of vs = None.
Proof. induction vs as [|v t IH]; [contradiction|]. intros [->|I]; [reflexivity|]. cbn. rewrite (IH I). destruct v; reflexivity. Qed.
Theorem numbers : (forall vs : list Q, vs <> [] -> exists m, mean_of (map Some vs) = Some m /\ (m * inject_Z (zlen vs) == fold_right Qplus 0 vs)%Q) /\
  (forall vs, In None vs -> mean_of vs = None) /\
  (forall x y, ~ (y == 0)%Q -> exists z, divide (Some x) (Some y) = Some z /\ (z * y == x)%Q) /\
  (forall x y, (y == 0)%Q -> divide x (Some y) = None) /\ (forall x, divide x None = None /\ divide None x = None).
Proof.
  split; [|split; [|split; [|split]]].
  - intros vs N. destruct (sum_some vs) as (s & S1 & S2). unfold mean_of. rewrite S1, zlen_map. eexists. split; [reflexivity|]. rewrite <- S2. field.
    assert (P : 1 <= zlen vs) by (destruct vs; [contradiction|rewrite zlen_cons; pose proof (zlen_nonneg vs); lia]). pose proof (inject_pos _ P). lra.
  - intros vs I. unfold mean_of. rewrite (sum_none _ I). reflexivity.
  - intros x y N. cbn. destruct (Qeq_bool y 0) eqn:E; [apply Qeq_bool_iff in E; contradiction|]. eexists. split; [reflexivity|]. field. exact N.
  - intros [x|] y E; cbn; [|reflexivity]. rewrite (proj2 (Qeq_bool_iff y 0) E). reflexivity.
  - intros [x|]; split; reflexivity.
Qed.
