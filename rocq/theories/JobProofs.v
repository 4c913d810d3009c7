(** Proofs for mapped spools (C95). *)
From Verif Require Import Base BaseFacts CoordModel FrameModel ChunkModel SpoolModel SpoolSpec SpoolProofs SpoolProofs4 SpoolProofs5 SpoolProofs6 SpoolProofs7 JobModel JobSpec.
From Coq Require Import Strings.String Lia.
Local Open Scope Z_scope.
Local Open Scope list_scope.

Section Jobs.
  Context {P T : Type}.
  Variable fetch : kwargs -> list part -> option (result P).
  Variable func : P -> result T.

  Lemma over_app s a b : over fetch func s (a ++ b) = (do x <- over fetch func s a; do y <- over fetch func s b; Ok (x ++ y)).
  Proof.
    induction a as [|i t IH]; cbn [over app]; [cbn; destruct (over fetch func s b); reflexivity|].
    destruct (entry_patch fetch s i) as [[p|e]|]; cbn; [|reflexivity|exact IH]. destruct (func p); cbn; [|reflexivity].
    rewrite IH. destruct (over fetch func s t); cbn; [|reflexivity]. destruct (over fetch func s b); reflexivity.
  Qed.
  Lemma over_map s s' (h : Z -> Z) is : (forall i, In i is -> entry_patch fetch s' i = entry_patch fetch s (h i)) -> over fetch func s' is = over fetch func s (map h is).
  Proof.
    induction is as [|i t IH]; intros H; [reflexivity|]. cbn [over map]. rewrite (H i) by (cbn; auto). rewrite IH by (intros; apply H; cbn; auto). reflexivity.
  Qed.
  Lemma slice_sel s sl s' : sp_slice s sl = Ok s' -> sp_sel s' = sp_sel s.
  Proof. unfold sp_slice. destruct (np_index _ _); [|discriminate]. destruct (loc _ _); cbn; [|discriminate]. intros [= <-]. reflexivity. Qed.
  Lemma piece_map s a b p : NoDup (map fst (sp_src s)) -> NoDup (map n_src (sp_ins s)) -> sourced s -> 0 <= a <= sp_len s -> a <= b ->
    sp_slice s (mkSlice (Some a) (Some b) None) = Ok p -> plain_map fetch func p = over fetch func s (map (fun i => a + i) (zrange (Z.min (sp_len s) b - a))).
  Proof.
    intros N NI S A B E. destruct (slice_exact s _ p N NI S E) as (ps & Ep & Lp & H). rewrite simple_positions in Ep by assumption. injection Ep as <-.
    rewrite zlen_map, zlen_zrange in Lp. unfold plain_map. rewrite Lp. replace (Z.max 0 (Z.min (sp_len s) b - a)) with (Z.min (sp_len s) b - a) by lia.
    apply over_map. intros i I. apply in_zrange in I. unfold entry_patch. rewrite (slice_sel _ _ _ E).
    rewrite (H i (a + i)); [reflexivity|]. rewrite znth_map, znth_zrange. destruct (Z.leb_spec 0 i), (Z.ltb_spec i (Z.min (sp_len s) b - a)); cbn; try lia; reflexivity.
  Qed.
  Lemma range_split a n m : 0 <= m <= n -> map (fun i => a + i) (zrange n) = map (fun i => a + i) (zrange m) ++ map (fun i => a + m + i) (zrange (n - m)).
  Proof.
    intros H. apply znth_ext. intros i. rewrite znth_app, !zlen_map, !zlen_zrange, !znth_map, !znth_zrange.
    destruct (Z.leb_spec 0 i), (Z.ltb_spec i n), (Z.ltb_spec i m), (Z.ltb_spec i (Z.max 0 m)), (Z.leb_spec 0 (i - Z.max 0 m)), (Z.ltb_spec (i - Z.max 0 m) (n - m)); cbn; try lia; try reflexivity; f_equal; lia.
  Qed.
  Lemma run_pieces s step : NoDup (map fst (sp_src s)) -> NoDup (map n_src (sp_ins s)) -> sourced s -> 0 < step -> forall fuel start,
    0 <= start -> sp_len s - start <= Z.of_nat fuel * step ->
    exists pieces, split_run fuel s start step = Some (Ok pieces) /\
      (do r <- map_result (plain_map fetch func) pieces; Ok (List.concat r)) = over fetch func s (map (fun i => start + i) (zrange (sp_len s - start))).
  Proof.
    intros N NI S Hp. induction fuel as [|fuel IH]; intros start H0 Hf; cbn [split_run].
    - rewrite (proj2 (Z.ltb_ge start (sp_len s))) by lia. exists []. split; [reflexivity|]. rewrite zrange_nonpos by lia. reflexivity.
    - destruct (Z.ltb_spec start (sp_len s)) as [Hlt|Hge].
      + destruct (slice_piece s start (start + step) S) as (p & E & Ed & El); [lia|lia|]. rewrite E.
        destruct (IH (start + step)) as (pieces & R & Q); [lia|lia|]. rewrite R. exists (p :: pieces). split; [reflexivity|].
        cbn [map_result]. rewrite (piece_map s start (start + step) p N NI S) by (lia || assumption).
        destruct (Z.le_ge_cases (start + step) (sp_len s)) as [G|G].
        * replace (Z.min (sp_len s) (start + step) - start) with step by lia.
          rewrite (range_split start (sp_len s - start) step) by lia. rewrite over_app. replace (sp_len s - start - step) with (sp_len s - (start + step)) by lia. rewrite <- Q.
          destruct (over fetch func s (map (fun i => start + i) (zrange step))); cbn; [|reflexivity]. destruct (map_result _ pieces); reflexivity.
        * replace (Z.min (sp_len s) (start + step) - start) with (sp_len s - start) by lia. rewrite (zrange_nonpos (sp_len s - (start + step))) in Q by lia. cbn in Q.
          destruct (over fetch func s (map (fun i => start + i) (zrange (sp_len s - start)))) as [o|]; cbn; [|reflexivity].
          destruct (map_result (plain_map fetch func) pieces) as [r|]; cbn in *; [|discriminate]. injection Q as Q. rewrite Q, app_nil_r. reflexivity.
      + exists []. split; [reflexivity|]. rewrite zrange_nonpos by lia. reflexivity.
  Qed.
End Jobs.

Lemma piece_positive n cpus size : 0 < cpus -> (forall k, size = Some k -> 0 < k) -> 0 < n -> 0 < piece_size n cpus size.
Proof.
  intros C K Hn. destruct size as [k|]; cbn; [apply K; reflexivity|]. unfold ceil_div. pose proof (Z.div_mod (- n) cpus ltac:(lia)). pose proof (Z.mod_pos_bound (- n) cpus C). nia.
Qed.
Theorem client_map {P T} fetch (func : P -> result T) client cpus s size : NoDup (map fst (sp_src s)) -> NoDup (map n_src (sp_ins s)) -> sourced s ->
  orderly client -> 0 < cpus -> (forall k, size = Some k -> 0 < k) ->
  forall fuel, sp_len s <= Z.of_nat fuel -> spool_map fetch fuel (Some client) cpus func s size = spool_map fetch fuel None cpus func s size.
Proof.
  intros N NI S O C K fuel F. unfold spool_map, sp_split. cbn [split_step].
  destruct (Z.lt_ge_cases 0 (sp_len s)) as [L|L].
  - pose proof (piece_positive _ _ _ C K L) as Hp. set (step := piece_size (sp_len s) cpus size) in *.
    destruct (run_pieces fetch func s step N NI S Hp fuel 0) as (pieces & R & Q); [lia|nia|]. rewrite R. rewrite O, Q. unfold plain_map. f_equal. f_equal.
    rewrite Z.sub_0_r. rewrite (map_ext _ (fun i => i)) by (intros; lia). apply map_id.
  - assert (sp_len s = 0) as E by (unfold sp_len in *; pose proof (zlen_nonneg (sp_df s)); lia).
    assert (R : forall step, split_run fuel s 0 step = Some (Ok [])) by (intros step; destruct fuel; cbn [split_run]; rewrite E; reflexivity).
    rewrite R, O. unfold plain_map. rewrite E. reflexivity.
Qed.
Theorem client_never {P T} fetch (func : P -> result T) client cpus s k : k <= 0 -> 0 < sp_len s -> sourced s ->
  forall fuel, spool_map fetch fuel (Some client) cpus func s (Some k) = None.
Proof. intros K L S fuel. unfold spool_map. rewrite (split_never s _ None k); [reflexivity|reflexivity|exact K|exact L|exact S]. Qed.

Theorem plain_each {P T} fetch (func : P -> result T) s out : plain_map fetch func s = Ok out <->
  Forall2 (fun i y => exists p, entry_patch fetch s i = Some (Ok p) /\ func p = Ok y) (filter (fun i => match entry_patch fetch s i with None => false | Some _ => true end) (zrange (sp_len s))) out.
Proof.
  unfold plain_map. generalize (zrange (sp_len s)). intros is. revert out. induction is as [|i t IH]; intros out; cbn [over filter].
  - split; [intros [= <-]; constructor|inversion 1; reflexivity].
  - destruct (entry_patch fetch s i) as [[p|e]|] eqn:E; cbn [bind]; [| |apply IH].
    + destruct (func p) as [y|e] eqn:F; cbn [bind].
      * split.
        -- destruct (over fetch func s t) as [l|] eqn:Q; cbn; [|discriminate]. intros [= <-]. constructor; [eauto|]. apply IH. reflexivity.
        -- inversion 1 as [|? ? ? ? (p' & Ep & Fp) G]; subst. rewrite E in Ep. injection Ep as <-. rewrite F in Fp. injection Fp as <-. apply IH in G. rewrite G. reflexivity.
      * split; [discriminate|]. inversion 1 as [|? ? ? ? (p' & Ep & Fp) G]; subst. rewrite E in Ep. injection Ep as <-. congruence.
    + split; [discriminate|]. inversion 1 as [|? ? ? ? (p' & Ep & Fp) G]; subst. congruence.
Qed.

Theorem client_pieces s cpus : sourced s -> 0 < cpus -> 0 < sp_len s -> exists pieces,
  (forall fuel, sp_len s <= Z.of_nat fuel -> sp_split fuel s (Some (piece_size (sp_len s) cpus None)) None = Some (Ok pieces)) /\ 0 < zlen pieces <= cpus.
Proof.
  intros S C L. pose proof (piece_positive (sp_len s) cpus None C ltac:(discriminate) L) as Hp. set (step := piece_size (sp_len s) cpus None) in *.
  destruct (split_spec s (Some step) None step S eq_refl Hp) as (pieces & F & _ & _ & L1 & L2). exists pieces. split; [intros fuel H; apply F; nia|].
  assert (0 < zlen pieces) by nia. split; [lia|]. specialize (L2 ltac:(lia)).
  assert (sp_len s <= cpus * step). { subst step. cbn. unfold ceil_div. pose proof (Z.div_mod (- sp_len s) cpus ltac:(lia)). pose proof (Z.mod_pos_bound (- sp_len s) cpus C). nia. }
  nia.
Qed.
