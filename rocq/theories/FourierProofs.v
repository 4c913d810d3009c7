(** Lemmas behind FourierProps.v: frequency and lag coordinates, shifts, names. *)
From Verif Require Import Base BaseFacts CoordModel CoordSpec CoordProofs NdModel NdSpec NdProofs NdProofs2
  FrameModel FrameProofs5 ChunkModel CmModel CmSpec CmProofs CmProofs2 ProcModel ProcSpec FourierModel FourierSpec.
From Coq Require Import Strings.String ZifyBool Sorting.Permutation.
Ltac Zify.zify_post_hook ::= Z.div_mod_to_equations.
Local Open Scope Z_scope.
Local Open Scope list_scope.

(** ** The frequency coordinate *)
Lemma fft_coord_ok (n step : Z) (real : bool) : 1 <= n -> step <> 0 ->
  let sg := Z.sgn step in
  let start := if real then 0 else - (n / 2) * sg in
  let len := if real then n / 2 + 1 else n in
  fft_coord n step real = Ok (CRange (mkRange KInt start (start + sg * len) sg len)).
Proof.
  intros N S sg start len. assert (SG : sg = 1 \/ sg = -1) by (unfold sg; lia).
  unfold fft_coord. fold sg start.
  replace ((if real then n / 2 + 1 else (n - 1) / 2 + 1) * sg) with (start + sg * len).
  - rewrite mk_range_exact; [reflexivity|lia|unfold len; destruct real; lia].
  - unfold start, len. destruct real; destruct SG as [-> | ->]; lia.
Qed.

Lemma znth_progression a s n i : 0 <= i < n -> znth (progression a s n) i = Some (a + i * s).
Proof. intros H. unfold progression. rewrite znth_map, znth_zrange_in by exact H. reflexivity. Qed.

Lemma fft_coord_freq (n step : Z) : 1 <= n -> step <> 0 ->
  exists r, fft_coord n step false = Ok (CRange r) /\ wf_range r /\ zlen (r_values r) = n /\
    forall i, 0 <= i < n -> znth (r_values r) i = Some (Z.sgn step * freq n (shifted_bin n i)).
Proof.
  intros N S. pose proof (fft_coord_ok n step false N S) as E. cbv zeta in E. cbn [r_len] in E.
  eexists. split; [exact E|].
  match goal with |- wf_range ?r /\ _ => assert (W : wf_range r) end.
  { unfold wf_range. cbn [r_step r_len r_stop r_start]. lia. }
  split; [exact W|]. rewrite zlen_r_values by exact W. cbn [r_len]. split; [reflexivity|].
  intros i I. rewrite r_values_prog by exact W. cbn [r_start r_step r_len]. rewrite znth_progression by exact I.
  f_equal. assert (freq n (shifted_bin n i) = i - n / 2) as ->; [|lia].
  unfold freq, shifted_bin. destruct (Z.ltb_spec i (n / 2)).
  - assert ((i - n / 2) mod n = i - n / 2 + n) as ->.
    { symmetry. apply (Z.mod_unique _ _ (-1)); [left; lia|lia]. }
    destruct (Z.ltb_spec (2 * (i - n / 2 + n)) n); lia.
  - rewrite (Z.mod_small (i - n / 2) n) by lia. destruct (Z.ltb_spec (2 * (i - n / 2)) n); lia.
Qed.

Lemma fft_coord_real (n step : Z) : 1 <= n -> step <> 0 ->
  exists r, fft_coord n step true = Ok (CRange r) /\ wf_range r /\ zlen (r_values r) = n / 2 + 1 /\
    forall i, 0 <= i <= n / 2 -> znth (r_values r) i = Some (Z.sgn step * i).
Proof.
  intros N S. pose proof (fft_coord_ok n step true N S) as E. cbv zeta in E.
  eexists. split; [exact E|].
  match goal with |- wf_range ?r /\ _ => assert (W : wf_range r) end.
  { unfold wf_range. cbn [r_step r_len r_stop r_start]. lia. }
  split; [exact W|]. rewrite zlen_r_values by exact W. split; [reflexivity|].
  intros i I. rewrite r_values_prog by exact W. cbn [r_start r_step r_len]. rewrite znth_progression by lia.
  f_equal. lia.
Qed.

(** ** Shifts *)
Lemma roll_ix_nth s k ix : forall j n q i,
  nth_error s j = Some n -> nth_error k j = Some q -> nth_error ix j = Some i ->
  nth_error (roll_ix s k ix) j = Some ((i - q) mod n).
Proof.
  unfold roll_ix. revert k ix. induction s as [|n0 s IH]; intros [|k0 k] [|i0 ix] [|j] n q i; cbn [nth_error combine map fst snd]; try discriminate.
  - intros [= ->] [= ->] [= ->]. reflexivity.
  - apply IH.
Qed.
Lemma roll_ix_length s k ix : List.length s = List.length k -> List.length s = List.length ix ->
  List.length (roll_ix s k ix) = List.length s.
Proof. intros A B. unfold roll_ix. rewrite map_length, !combine_length. lia. Qed.
Lemma roll_ix_inb s k ix : List.length s = List.length k -> inb s ix -> inb s (roll_ix s k ix).
Proof.
  intros L B. unfold inb in *. revert k L. induction B as [|n i s ix H B IH]; intros [|q k]; cbn; try discriminate; intros L; constructor.
  - apply Z.mod_pos_bound. lia.
  - apply IH. lia.
Qed.
Lemma roll_ix_undo s k k' ix : List.length s = List.length k -> k' = map Z.opp k -> inb s ix ->
  roll_ix s k (roll_ix s k' ix) = ix.
Proof.
  intros L -> B. unfold inb in *. revert k L. induction B as [|n i s ix H B IH]; intros [|q k]; cbn; try discriminate; intros L; [reflexivity|].
  f_equal; [|apply IH; lia]. rewrite Zminus_mod_idemp_l. replace (i - - q - q) with i by lia. apply Z.mod_small. exact H.
Qed.

Lemma shifts_on_length f s axes : List.length (shifts_on f s axes) = List.length s.
Proof. unfold shifts_on. rewrite map_length, combine_length, seq_length. lia. Qed.
Lemma shifts_on_opp f s axes : map Z.opp (shifts_on f s axes) = shifts_on (fun n => - f n) s axes.
Proof. unfold shifts_on. rewrite map_map. apply map_ext. intros [i n]. cbn [fst snd]. destruct (existsb _ _); reflexivity. Qed.
Lemma shifts_on_ext f s axes axes' : (forall i, In i axes <-> In i axes') -> shifts_on f s axes = shifts_on f s axes'.
Proof.
  intros H. unfold shifts_on. apply map_ext. intros [i n]. cbn [fst snd].
  replace (existsb (Nat.eqb i) axes') with (existsb (Nat.eqb i) axes); [reflexivity|].
  apply eq_true_iff_eq. rewrite !existsb_exists. split; intros (x & A & B); exists x; split; auto; apply H; exact A.
Qed.
Lemma nth_combine_seq {B} (l : list B) : forall i k, nth_error (combine (seq k (List.length l)) l) i =
  match nth_error l i with Some x => Some ((k + i)%nat, x) | None => None end.
Proof.
  induction l as [|x l IH]; intros [|i] k; cbn [Datatypes.length seq combine nth_error]; try reflexivity.
  - rewrite Nat.add_0_r. reflexivity.
  - rewrite IH. destruct (nth_error l i); [|reflexivity]. do 2 f_equal. lia.
Qed.
Lemma shifts_on_nth f s axes i n : nth_error s i = Some n ->
  nth_error (shifts_on f s axes) i = Some (if existsb (Nat.eqb i) axes then f n else 0).
Proof. intros E. unfold shifts_on. rewrite nth_error_map, nth_combine_seq, E. reflexivity. Qed.

Lemma nd_roll_ok {A} (a : nd A) k : wf_nd a -> List.length k = List.length (nd_shape a) ->
  exists b, nd_roll a k = Some b /\ wf_nd b /\ nd_shape b = nd_shape a /\
    forall ix, inb (nd_shape a) ix -> nd_get b ix = nd_get a (roll_ix (nd_shape a) k ix).
Proof.
  intros W L. pose proof W as [P _].
  assert (T : forall ix, inb (nd_shape a) ix -> exists x, nd_get a (roll_ix (nd_shape a) k ix) = Some x).
  { intros ix B. apply nd_get_total; [exact W|]. apply roll_ix_inb; [symmetry; exact L|exact B]. }
  unfold nd_roll. destruct (nd_build_total (nd_shape a) (fun ix => nd_get a (roll_ix (nd_shape a) k ix)) P T) as [b E].
  exists b. split; [exact E|]. destruct (nd_build_spec _ _ _ P E) as (S & Wb & G). split; [exact Wb|]. split; [exact S|].
  intros ix B. destruct (G ix B) as (x & -> & ->). reflexivity.
Qed.

Lemma nd_roll_undo {A} (a b : nd A) k k' : wf_nd a -> List.length k = List.length (nd_shape a) -> k' = map Z.opp k ->
  nd_roll a k = Some b -> nd_roll b k' = Some a.
Proof.
  intros W L K E. destruct (nd_roll_ok a k W L) as (b' & E' & Wb & S & G).
  assert (b' = b) as -> by congruence.
  destruct (nd_roll_ok b k' Wb) as (c & Ec & Wc & Sc & Gc).
  { rewrite K, map_length, S. exact L. }
  rewrite Ec. f_equal. apply nd_ext; [exact Wc|exact W|congruence|].
  intros ix B. rewrite Sc in B. rewrite (Gc ix B). rewrite S in B |- *.
  rewrite G by (apply roll_ix_inb; [rewrite K, map_length; symmetry; exact L|exact B]).
  f_equal. apply roll_ix_undo; [symmetry; exact L|exact K|exact B].
Qed.

Lemma fftshift_ok {A} (a : nd A) axes : wf_nd a -> exists b, fftshift a axes = Some b /\ wf_nd b /\
  nd_shape b = nd_shape a /\ ifftshift b axes = Some a /\
  forall ix, inb (nd_shape a) ix -> exists jx, nd_get b ix = nd_get a jx /\ inb (nd_shape a) jx /\
    forall i n x, nth_error (nd_shape a) i = Some n -> nth_error ix i = Some x ->
      nth_error jx i = Some (if existsb (Nat.eqb i) axes then shifted_bin n x else x).
Proof.
  intros W. unfold fftshift.
  destruct (nd_roll_ok a (shifts_on (fun n => n / 2) (nd_shape a) axes) W) as (b & E & Wb & S & G).
  { apply shifts_on_length. }
  exists b. split; [exact E|]. split; [exact Wb|]. split; [exact S|]. split.
  - unfold ifftshift. rewrite S. eapply nd_roll_undo; [exact W| | |exact E].
    + apply shifts_on_length.
    + rewrite shifts_on_opp. reflexivity.
  - intros ix B. eexists. split; [apply (G ix B)|]. split.
    + apply roll_ix_inb; [symmetry; apply shifts_on_length|exact B].
    + intros i n x Hn Hx. rewrite (roll_ix_nth _ _ _ i n _ x Hn (shifts_on_nth _ _ _ _ _ Hn) Hx).
      destruct (existsb (Nat.eqb i) axes); [reflexivity|]. rewrite Z.sub_0_r. f_equal. apply Z.mod_small.
      destruct (proj1 (inb_nth _ _) B) as [_ Q]. eapply Q; eassumption.
Qed.

(** ** The lag coordinate *)
Lemma lag_half n : 1 <= n -> ceil_div (n - 1) 2 = n / 2.
Proof. intros H. apply ceil_div_spec; lia. Qed.

Lemma lag_coord_time r : wf_range r -> 2 <= r_len r ->
  (r_kind r = KTime \/ Z.even (r_len r) = true \/ r_len r < 100000) ->
  lag_coord r = Ok (CRange (mkRange (r_kind r) (- (r_len r / 2) * r_step r)
     (- (r_len r / 2) * r_step r + r_step r * r_len r) (r_step r) (r_len r))).
Proof.
  intros (S & L & E) N K. unfold lag_coord. rewrite lag_half by lia.
  set (h := r_len r / 2) in *. assert (1 <= h) by (unfold h; lia).
  assert (2 * h = r_len r \/ 2 * h + 1 = r_len r) as PAR by (unfold h; lia).
  replace (- (h * r_step r)) with (- h * r_step r) by lia.
  replace (h * r_step r) with (- h * r_step r + r_step r * (2 * h)) by lia.
  rewrite mk_range_exact by lia. cbn [bind]. unfold change_length. cbn [r_len r_stop r_step r_start r_kind].
  destruct (Z.ltb_spec (r_len r) 0); [lia|].
  destruct (Z.eqb_spec (2 * h) (r_len r)) as [P|P].
  - cbn [bind c_len r_len]. rewrite P, Z.eqb_refl. reflexivity.
  - destruct PAR as [PAR|PAR]; [contradiction|].
    destruct (Z.eqb_spec (r_len r) 0); [lia|].
    assert (AC : all_close (r_kind r) (- h * r_step r + r_step r * (2 * h) + r_step r * (r_len r - 2 * h))
                   (- h * r_step r + r_step r * (2 * h)) = false).
    { rewrite <- PAR. replace (- h * r_step r + r_step r * (2 * h)) with (h * r_step r) by lia.
      replace (2 * h + 1 - 2 * h) with 1 by lia. unfold all_close.
      destruct (r_kind r) eqn:Q.
      - destruct K as [K|[K|K]]; [discriminate| |].
        + rewrite <- PAR in K. rewrite Z.even_add, Z.even_mul in K. discriminate.
        + apply Z.leb_gt. replace (h * r_step r + r_step r * 1 - h * r_step r) with (r_step r) by lia.
          rewrite Z.abs_mul. rewrite (Z.abs_eq h) by lia.
          assert (1 <= Z.abs (r_step r)) by lia. nia.
      - apply Z.eqb_neq. lia. }
    rewrite AC. unfold r_new. cbn [r_kind r_len].
    replace (- h * r_step r + r_step r * (2 * h) + r_step r * (r_len r - 2 * h)) with (- h * r_step r + r_step r * r_len r) by lia.
    rewrite mk_range_exact by lia. cbn [c_len r_len]. rewrite Z.eqb_refl. cbn [bind]. cbn [c_len r_len]. rewrite Z.eqb_refl. reflexivity.
Qed.
