From Verif Require Import Base BaseFacts CoordModel CoordSpec CoordProofs CoordProofs2 CoordProofs3
  ChunkModel ChunkSpec.
From Coq Require Import ZifyBool Sorting.Permutation Sorting.Sorted.
Ltac Zify.zify_post_hook ::= Z.div_mod_to_equations.

(** ** Intervals *)
Lemma filter_prefix {A} (f : Z -> A) (p : A -> bool) n :
  (forall i j, 0 <= i <= j -> p (f j) = true -> p (f i) = true) ->
  exists m, 0 <= m <= Z.max 0 n /\ filter p (map f (zrange n)) = map f (zrange m) /\
    forall i, 0 <= i < n -> (p (f i) = true <-> i < m).
Proof.
  intros M. destruct (Z_le_gt_dec n 0) as [H|H].
  - exists 0. rewrite zrange_nonpos by lia. repeat split; cbn; auto; lia.
  - assert (0 <= n) as Hn by lia; clear H. revert n Hn. apply natlike_ind.
    + exists 0. cbn. repeat split; auto; lia.
    + intros n Hn (m & B & E & S). unfold Z.succ. rewrite zrange_succ by lia.
      rewrite map_app, filter_app, E. cbn [map filter].
      destruct (p (f n)) eqn:P.
      * assert (m = n).
        { destruct (Z.eq_dec m n); auto. assert (p (f m) = true) by (apply (M m n); auto; lia).
          apply S in H; lia. }
        subst m. exists (n + 1). rewrite zrange_succ, map_app by lia. repeat split; auto; try lia.
        intros _. destruct (Z.eq_dec i n); [subst; auto|]. apply S; lia.
      * exists m. rewrite app_nil_r. repeat split; auto; try lia.
        -- intros Hp. destruct (Z.eq_dec i n); [congruence|]. apply S; auto; lia.
        -- intros Hi. apply S; lia.
Qed.

Lemma intervals_null start stop overlap step keep :
  get_intervals start stop None overlap step keep = Ok [(start, stop)].
Proof. reflexivity. Qed.


Lemma intervals_spec start stop len ov st keep :
  0 <= or0 st -> or0 ov < len ->
  let ns := len - or0 ov in
  let fits i := start + i * ns + or0 st <= stop /\
                (keep = false -> start + i * ns + len - or0 st <= stop) in
  if negb keep && (stop - start + or0 st <? len)
  then get_intervals start stop (Some len) ov st keep = Err ChunkError
  else exists n, 0 <= n /\
    get_intervals start stop (Some len) ov st keep
    = Ok (map (fun i => (start + i * ns, Z.min (start + i * ns + len - or0 st)
                                               (if keep then stop else start + i * ns + len - or0 st)))
              (zrange n)) /\
    forall i, 0 <= i -> (i < n <-> fits i).
Proof.
  intros Hs Ho ns fits. unfold get_intervals. fold (or0 ov) (or0 st).
  destruct (Z.ltb_spec len (or0 ov)); [lia|].
  rewrite (andb_comm (negb keep)).
  destruct ((stop - start + or0 st <? len) && negb keep) eqn:C; [reflexivity|].
  destruct (Z.eqb_spec (len - or0 ov) 0); [lia|]. fold ns.
  set (N := ceil_div (stop + ns - start) ns).
  assert (HN : (N - 1) * ns < stop + ns - start <= N * ns) by (apply ceil_div_spec; unfold ns; lia || reflexivity).
  unfold np_arange. fold N.
  destruct (filter_prefix (fun i => start + i * ns) (fun r => r + or0 st <=? stop) N) as (m & Bm & Em & Sm).
  { intros i j Hij Hj. apply Z.leb_le in Hj. apply Z.leb_le. assert (i * ns <= j * ns) by (unfold ns in *; nia). lia. }
  rewrite Em.
  assert (Sm' : forall i, 0 <= i -> (start + i * ns + or0 st <= stop <-> i < m)).
  { intros i Hi. destruct (Z_lt_ge_dec i N) as [L|G].
    - rewrite <- Sm by lia. rewrite Z.leb_le. tauto.
    - split; [|lia]. intros. exfalso. assert (N * ns <= i * ns) by (unfold ns in *; nia). lia. }
  destruct keep.
  - exists m. split; [lia|]. split.
    + f_equal. rewrite !map_map. apply map_ext. intros i. cbn [fst snd]. f_equal.
      destruct (Z.ltb_spec stop (start + i * ns + len - or0 st)); lia.
    + intros i Hi. unfold fits. rewrite <- Sm' by lia. intuition discriminate.
  - destruct (filter_prefix (fun i => (start + i * ns, start + i * ns + len - or0 st))
               (fun p => snd p <=? stop) m) as (m' & Bm' & Em' & Sm2).
    { cbn [snd]. intros i j Hij Hj. apply Z.leb_le in Hj. apply Z.leb_le. assert (i * ns <= j * ns) by (unfold ns in *; nia). lia. }
    rewrite map_map. rewrite Em'. exists m'. split; [lia|]. split.
    + f_equal. apply map_ext. intros i. now rewrite Z.min_id.
    + intros i Hi. unfold fits. cbn [snd] in Sm2. rewrite (Sm' i Hi). split.
      * intros L. split; [lia|]. intros _. apply Z.leb_le. apply Sm2; lia.
      * intros [H1 H2]. apply Sm2; [lia|]. apply Z.leb_le. auto.
Qed.

Lemma intervals_errors start stop len ov st keep :
  (len < or0 ov -> get_intervals start stop (Some len) ov st keep = Err ParameterError) /\
  (len = or0 ov -> get_intervals start stop (Some len) ov st keep
     = if (stop - start + or0 st <? len) && negb keep then Err ChunkError else Err ZeroDivision).
Proof.
  unfold get_intervals. fold (or0 ov) (or0 st). split; intros H.
  - destruct (Z.ltb_spec len (or0 ov)); [reflexivity|lia].
  - destruct (Z.ltb_spec len (or0 ov)); [lia|].
    destruct ((_ <? _) && _); [reflexivity|]. destruct (Z.eqb_spec (len - or0 ov) 0); [reflexivity|lia].
Qed.

Lemma intervals_disjoint start stop len ov st keep ivs :
  0 < or0 st -> or0 st <= len -> or0 ov <= 0 ->
  get_intervals start stop (Some len) ov st keep = Ok ivs ->
  forall i j a b c d, 0 <= i < j -> znth ivs i = Some (a, b) -> znth ivs j = Some (c, d) -> b < c.
Proof.
  intros Hs Hl Ho E. pose proof (intervals_spec start stop len ov st keep ltac:(lia) ltac:(lia)) as H.
  cbn zeta in H. destruct (negb keep && _); [congruence|]. destruct H as (n & Hn & E' & _).
  rewrite E in E'. injection E' as ->. intros i j a b c d Hij Hi Hj.
  rewrite znth_map, znth_zrange in Hi, Hj.
  destruct ((0 <=? i) && (i <? n)); [|discriminate]. destruct ((0 <=? j) && (j <? n)); [|discriminate].
  cbn in Hi, Hj. injection Hi as <- <-. injection Hj as <- <-.
  assert ((i + 1) * (len - or0 ov) <= j * (len - or0 ov)) by nia.
  lia.
Qed.

Lemma intervals_inside start stop len ov st keep ivs a b :
  0 <= or0 st -> or0 st <= len -> or0 ov < len ->
  get_intervals start stop (Some len) ov st keep = Ok ivs -> In (a, b) ivs ->
  start <= a /\ a <= b /\ b <= stop.
Proof.
  intros Hs Hl Ho E. pose proof (intervals_spec start stop len ov st keep ltac:(lia) ltac:(lia)) as H.
  cbn zeta in H. destruct (negb keep && _); [congruence|]. destruct H as (n & Hn & E' & F).
  rewrite E in E'. injection E' as ->. intros Hin. apply in_map_iff in Hin as (i & Hi & Hr).
  apply in_zrange in Hr. injection Hi as <- <-.
  destruct (proj1 (F i ltac:(lia)) ltac:(lia)) as [F1 F2].
  assert (0 <= i * (len - or0 ov)) by nia. destruct keep; [lia|specialize (F2 eq_refl); lia].
Qed.

(** Coverage with partial intervals: every sample but possibly the last. *)
Lemma intervals_cover start stop len ov s x :
  0 < s -> 0 <= or0 ov -> or0 ov < len -> (s | len) -> (s | or0 ov) ->
  on_grid start s x -> start <= x -> x + s <= stop ->
  exists ivs a b, get_intervals start stop (Some len) ov (Some s) true = Ok ivs /\
    In (a, b) ivs /\ a <= x <= b.
Proof.
  intros Hs Ho Hl [p Hp] [q Hq] [k Hk] Hx Hst.
  pose proof (intervals_spec start stop len ov (Some s) true ltac:(cbn; lia) Hl) as H.
  cbn [negb andb or0] in H. destruct H as (n & Hn & E & F).
  rewrite E. eexists. set (ns := len - or0 ov) in *.
  assert (Hns : 0 < ns) by (unfold ns; lia).
  set (i := (x - start) / ns).
  assert (Hi : i * ns <= x - start < (i + 1) * ns).
  { pose proof (Z.div_mod (x - start) ns ltac:(lia)). pose proof (Z.mod_pos_bound (x - start) ns Hns).
    fold i in H. lia. }
  assert (0 <= i) by (unfold i; apply Z.div_pos; lia).
  exists (start + i * ns). eexists. split; [reflexivity|]. split.
  - apply in_map_iff. exists i. split; [reflexivity|]. apply in_zrange. split; [lia|].
    apply F; [lia|]. split; [lia|discriminate].
  - split; [lia|]. apply Z.min_glb; [|lia].
    assert (D : exists c, x - (start + i * ns) = c * s).
    { exists (k - i * (p - q)). unfold ns. lia. }
    destruct D as [c Hc]. assert (c < p) by nia. nia.
Qed.

(** ** Grouping *)
Lemma zlen_cumsum k l : zlen (cumsum k l) = zlen l.
Proof. revert k; induction l as [|b l IH]; intros k; cbn [cumsum]; auto. now rewrite !zlen_cons, IH. Qed.

Lemma cumsum_ge k l : forall i x, znth (cumsum k l) i = Some x -> k <= x.
Proof.
  revert k; induction l as [|b l IH]; intros k i x; cbn [cumsum]; [now rewrite znth_nil|].
  rewrite znth_cons. destruct (i =? 0).
  - injection 1 as <-. destruct b; lia.
  - intros H; apply IH in H. destruct b; lia.
Qed.

Lemma cumsum_same l : forall k i j x y, 0 <= i <= j ->
  znth (cumsum k l) i = Some x -> znth (cumsum k l) j = Some y ->
  x <= y /\ (x = y <-> forall m, i < m <= j -> znth l m = Some false).
Proof.
  induction l as [|b l IH]; intros k i j x y Hij; cbn [cumsum]; [now rewrite znth_nil|].
  rewrite !znth_cons. destruct (Z.eqb_spec i 0) as [Ei|Ni].
  - subst. injection 1 as <-. destruct (Z.eqb_spec j 0) as [Ej|Nj].
    + subst. injection 1 as <-. split; [lia|]. split; auto; intros; lia.
    + intros Hy. set (k' := if b then k + 1 else k) in *. pose proof (cumsum_ge _ _ _ _ Hy) as G.
      split; auto.
      destruct l as [|b2 l2]; [cbn [cumsum] in Hy; now rewrite znth_nil in Hy|].
      pose proof Hy as Hy2. cbn [cumsum] in Hy2. 
      assert (H0 : znth (cumsum k' (b2 :: l2)) 0 = Some (if b2 then k' + 1 else k')) by reflexivity.
      destruct (IH k' 0 (j - 1) _ y ltac:(lia) H0 Hy) as [L S]. split.
      * intros ->. destruct b2; [lia|]. intros m Hm. rewrite znth_cons.
        destruct (Z.eqb_spec m 0); [lia|]. destruct (Z.eq_dec m 1) as [->|].
        -- reflexivity.
        -- apply S; auto; lia.
      * intros F. assert (b2 = false).
        { specialize (F 1 ltac:(lia)). rewrite !znth_cons in F; cbn in F; congruence. }
        subst b2. apply S. intros m Hm. specialize (F (m + 1) ltac:(lia)).
        rewrite znth_cons in F. destruct (Z.eqb_spec (m + 1) 0); [lia|].
        now replace (m + 1 - 1) with m in F by lia.
  - destruct (Z.eqb_spec j 0); [lia|]. intros Hx Hy.
    destruct (IH _ (i - 1) (j - 1) x y ltac:(lia) Hx Hy) as [L S]. split; auto.
    rewrite S. split; intros F m Hm.
    + rewrite znth_cons. destruct (Z.eqb_spec m 0); [lia|]. apply F; lia.
    + specialize (F (m + 1) ltac:(lia)). rewrite znth_cons in F.
      destruct (Z.eqb_spec (m + 1) 0); [lia|]. now replace (m + 1 - 1) with m in F by lia.
Qed.

Lemma zlen_gap_flags num den rows : forall cm, zlen (gap_flags num den cm rows) = zlen rows.
Proof.
  induction rows as [|r rows IH]; intros cm; cbn [gap_flags]; auto.
  destruct cm; now rewrite !zlen_cons, IH.
Qed.

Lemma gap_flags_spec num den rows : 0 < den -> forall cm k b,
  znth (gap_flags num den cm rows) k = Some b ->
  (b = true <-> exists r s, znth rows k = Some r /\ g_step r = Some s /\ (cm <> None \/ 0 < k) /\
     (forall m, cm = Some m -> num * s < den * (g_min r - m)) /\
     forall m r', 0 <= m < k -> znth rows m = Some r' -> num * s < den * (g_min r - g_max r')).
Proof.
  intros Hd. induction rows as [|r rows IH]; intros cm k b; cbn [gap_flags]; [now rewrite znth_nil|].
  destruct cm as [c|]; rewrite !znth_cons; destruct (Z.eqb_spec k 0) as [Ek|Nk]; subst.
  - injection 1 as <-. unfold too_far. split.
    + destruct (g_step r) as [s|] eqn:E; [|discriminate]. intros H. exists r, s.
      repeat split; auto; [left; discriminate| |intros; lia]. intros m [= <-]. lia.
    + intros (r' & s & [= <-] & E & _ & H & _). rewrite E. specialize (H c eq_refl). lia.
  - intros H. pose proof (znth_some _ _ _ H) as B.
    rewrite (IH _ _ _ H). split.
    + intros (r' & s & E & Es & _ & H1 & H2). exists r', s. repeat split; auto.
      * left; discriminate.
      * intros m [= <-]. specialize (H1 _ eq_refl). nia.
      * intros m x Hm. rewrite znth_cons. destruct (Z.eqb_spec m 0).
        -- intros [= <-]. specialize (H1 _ eq_refl). nia.
        -- intros Hx. apply (H2 (m - 1)); auto; lia.
    + intros (r' & s & E & Es & _ & H1 & H2). exists r', s. repeat split; auto.
      * left; discriminate.
      * intros m [= <-]. specialize (H1 _ eq_refl). specialize (H2 0 r ltac:(lia) eq_refl).
        destruct (Z.max_spec c (g_max r)) as [[? ->]|[? ->]]; lia.
      * intros m x Hm Hx. apply (H2 (m + 1)); [lia|]. rewrite znth_cons.
        destruct (Z.eqb_spec (m + 1) 0); [lia|]. now replace (m + 1 - 1) with m by lia.
  - injection 1 as <-. split; [discriminate|]. intros (r' & s & _ & _ & [H|H] & _); [congruence|lia].
  - intros H. pose proof (znth_some _ _ _ H) as B.
    rewrite (IH _ _ _ H). split.
    + intros (r' & s & E & Es & _ & H1 & H2). exists r', s. repeat split; auto.
      * right; lia.
      * discriminate.
      * intros m x Hm. rewrite znth_cons. destruct (Z.eqb_spec m 0).
        -- intros [= <-]. now apply H1.
        -- intros Hx. apply (H2 (m - 1)); auto; lia.
    + intros (r' & s & E & Es & _ & H1 & H2). exists r', s. repeat split; auto.
      * left; discriminate.
      * intros m [= <-]. apply (H2 0 r); auto; lia.
      * intros m x Hm Hx. apply (H2 (m + 1)); [lia|]. rewrite znth_cons.
        destruct (Z.eqb_spec (m + 1) 0); [lia|]. now replace (m + 1 - 1) with m by lia.
Qed.

Lemma lookup_spec args vals : NoDup args -> zlen args = zlen vals ->
  forall j i, znth args j = Some i -> znth vals j = Some (lookup i (combine args vals)).
Proof.
  revert vals; induction args as [|a args IH]; intros [|v vals] ND L j i.
  1,2: now rewrite znth_nil.
  { rewrite zlen_cons, zlen_nil in L. pose proof (zlen_nonneg args); lia. }
  rewrite !zlen_cons in L.
  - inversion ND as [|? ? Ha ND']; subst. rewrite !znth_cons. cbn [combine lookup].
    destruct (Z.eqb_spec j 0) as [Ej|Nj].
    + intros E. injection E as E2; subst i. now rewrite Z.eqb_refl.
    + pose proof (zlen_nonneg args); pose proof (zlen_nonneg vals).
      intros H1. destruct (Z.eqb_spec i a) as [->|]; [exfalso; apply Ha; eapply znth_in; eauto|].
      apply IH; auto; lia.
Qed.

Lemma unsort_spec args vals n : Permutation args (zrange n) -> zlen vals = zlen args -> 0 <= n ->
  zlen (unsort args vals) = n /\
  forall j i, znth args j = Some i -> znth (unsort args vals) i = znth vals j.
Proof.
  intros P L Hn. assert (LA : zlen args = n).
  { unfold zlen. rewrite (Permutation_length P). change (zlen (zrange n) = n). rewrite zlen_zrange; lia. }
  assert (ND : NoDup args).
  { eapply Permutation_NoDup; [symmetry; exact P|]. apply zsorted_NoDup, zsorted_zrange. }
  unfold unsort. split; [rewrite zlen_map, zlen_zrange; lia|].
  intros j i Hj. rewrite znth_map, znth_zrange, LA.
  assert (In i (zrange n)) by (eapply Permutation_in; [exact P|eapply znth_in; eauto]).
  apply in_zrange in H. destruct (Z.leb_spec 0 i), (Z.ltb_spec i n); try lia. cbn.
  symmetry. apply lookup_spec; auto.
Qed.

Lemma take_rows_perm {A} argsort (f : A -> Z) (rows : list A) : valid_argsort argsort ->
  exists sorted, gather rows (argsort (map f rows)) = Some sorted /\
    Permutation sorted rows /\ StronglySorted Z.le (map f sorted).
Proof.
  intros V. destruct (V (map f rows)) as [P (s & G & S)]. rewrite zlen_map in P.
  destruct (gather_ok rows (argsort (map f rows))) as [r Hr].
  { intros i Hi. apply (Permutation_in _ P) in Hi. now apply in_zrange in Hi. }
  exists r. split; auto. rewrite gather_map, Hr in G. injection G as <-. split; auto.
  eapply gather_Permutation; [exact P|exact Hr|apply gather_zrange].
Qed.

Lemma continuity_spec argsort num den rows : valid_argsort argsort -> 0 < den ->
  let args := argsort (map g_min rows) in
  let groups := continuity_groups argsort num den rows in
  zlen groups = zlen rows /\
  exists sorted, gather rows args = Some sorted /\ Permutation sorted rows /\
    StronglySorted Z.le (map g_min sorted) /\
    forall i j p q x y, 0 <= i <= j -> znth args i = Some p -> znth args j = Some q ->
      znth groups p = Some x -> znth groups q = Some y ->
      x <= y /\ (x = y <-> forall k, i < k <= j -> ~ gap_before num den sorted k).
Proof.
  intros V Hd args groups. destruct (take_rows_perm argsort g_min rows V) as (sorted & G & P & S).
  destruct (V (map g_min rows)) as [PA _]. rewrite zlen_map in PA.
  unfold groups, continuity_groups. fold args. unfold take_rows. fold args in G. rewrite G.
  set (fl := gap_flags num den None sorted).
  assert (LA : zlen args = zlen rows).
  { unfold zlen, args. rewrite (Permutation_length PA).
    change (zlen (zrange (zlen rows)) = zlen rows). rewrite zlen_zrange. pose proof (zlen_nonneg rows); lia. }
  assert (LS : zlen sorted = zlen rows) by (unfold zlen; now rewrite (Permutation_length P)).
  destruct (unsort_spec args (cumsum 0 fl) (zlen rows) PA) as [U1 U2].
  { unfold fl. now rewrite zlen_cumsum, zlen_gap_flags, LS, LA. }
  { apply zlen_nonneg. }
  split; auto. exists sorted. split; auto. split; auto. split; auto.
  intros i j p q x y Hij Hp Hq Hx Hy. rewrite (U2 _ _ Hp) in Hx. rewrite (U2 _ _ Hq) in Hy.
  destruct (cumsum_same fl 0 i j x y Hij Hx Hy) as [L E]. split; auto. rewrite E. clear E.
  apply znth_some in Hy. rewrite zlen_cumsum in Hy.
  split; intros H k Hk.
  - specialize (H k Hk). intros (r & s & Hr & Hs & Hk0 & F).
    apply (gap_flags_spec num den sorted Hd) in H.
    assert (false = true); [|discriminate]. apply H. exists r, s. repeat split; auto. discriminate.
  - destruct (proj2 (znth_range fl k) ltac:(lia)) as [b Hb]. rewrite Hb. destruct b; auto.
    exfalso. apply (H k Hk). pose proof (proj1 (gap_flags_spec num den sorted Hd None k true Hb) eq_refl) as X.
    destruct X as (r & s & Hr & Hs & _ & _ & F). exists r, s. repeat split; auto; lia.
Qed.
