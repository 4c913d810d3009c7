(** C48: transforms to the frequency domain and back, and correlation lags. *)
From Verif Require Import Base BaseFacts CoordModel CoordSpec CoordProofs NdModel NdSpec NdProofs FrameModel ChunkModel
  CmModel CmSpec CmProofs CmProofs18 ProcModel ProcSpec ProcProps FourierModel FourierSpec FourierProofs FourierProofs6 FourierProofs7 FourierProofs8.
From Coq Require Import Strings.String ZifyBool Sorting.Permutation.
Ltac Zify.zify_post_hook ::= Z.div_mod_to_equations.
Local Open Scope string_scope.
Local Open Scope list_scope.
Local Open Scope Z_scope.

(** * C48: frequencies, restoring, lags *)

(** Entry i of the coordinate of a complex transform is the frequency of the bin
    that fftshift puts at position i; the real transform lists the bins in order
    (units of 1 / (n |step|), descending for a negative step). *)
Theorem C48_frequencies : forall n step, 1 <= n -> step <> 0 ->
  exists r, fft_coord n step false = Ok (CRange r) /\ wf_range r /\ zlen (r_values r) = n /\
    forall i, 0 <= i < n -> znth (r_values r) i = Some (Z.sgn step * freq n (shifted_bin n i)).
Proof. exact fft_coord_freq. Qed.
Print Assumptions C48_frequencies.
Theorem C48_frequencies_real : forall n step, 1 <= n -> step <> 0 ->
  exists r, fft_coord n step true = Ok (CRange r) /\ wf_range r /\ zlen (r_values r) = n / 2 + 1 /\
    forall i, 0 <= i <= n / 2 -> znth (r_values r) i = Some (Z.sgn step * i).
Proof. exact fft_coord_real. Qed.
Print Assumptions C48_frequencies_real.

(** Without padding: the transform succeeds, its coordinates list the frequencies
    of its bins, its data are the shifted and scaled bins, and the inverse gives
    back data and coordinates exactly, however the dimensions are named. *)
Theorem C48_roundtrip : forall A (zero : A) fast fftn rfftn ifftn irfftn scale unscale good p b dim real ds,
  wf_patch p -> all_settled (p_cm p) ->
  asked_dims (p_cm p) dim = ds -> even_dims_of (p_cm p) ds -> free_names (p_cm p) ds ->
  fft_contract (nd_shape (p_data p)) good fftn rfftn ifftn irfftn scale unscale ->
  exists t, dft zero fast fftn rfftn scale (mkF p b) dim real false = Ok (mkF t false) /\ wf_patch t /\
    transformed (p_cm p) (p_cm t) ds (real_dim real ds) None /\
    transform_data fftn rfftn scale (p_cm p) ds (real_dim real ds) (p_data p) (p_data t) /\
    ((real_dim real ds <> None -> Forall good (nd_flat (p_data p))) -> told (p_cm p) ds (real_dim real ds) r_len ->
     forall names, asked_back (p_cm p) ds names ->
     exists r, idft ifftn irfftn unscale (mkF t false) names = Ok (mkF r false) /\ wf_patch r /\
       p_data r = p_data p /\ restored (p_cm p) (p_cm r) ds).
Proof. exact @dft_unpadded. Qed.
Print Assumptions C48_roundtrip.

(** With padding: the transform is that of the patch padded with zeros to the fast
    length; the inverse removes the padding again. *)
Theorem C48_roundtrip_padded : forall A (zero : A) fast fftn rfftn ifftn irfftn scale unscale good p b dim real ds,
  wf_patch p -> all_settled (p_cm p) -> plain_names (p_cm p) ->
  asked_dims (p_cm p) dim = ds -> even_dims_of (p_cm p) ds -> free_names (p_cm p) ds ->
  (forall n, 1 <= n -> n <= fast n) ->
  (forall d r, In d ds -> assoc d (cm_coords (p_cm p)) = Some (M1 (CRange r)) -> 0 < r_step r) ->
  fft_contract (dft_shape fast true (p_cm p) ds (nd_shape (p_data p))) good fftn rfftn ifftn irfftn scale unscale ->
  exists t q, dft zero fast fftn rfftn scale (mkF p b) dim real true = Ok (mkF t true) /\ wf_patch t /\
    padded p q zero (fft_pad fast (p_cm p) ds) /\
    transformed (p_cm q) (p_cm t) ds (real_dim real ds) (Some (p_cm p)) /\
    transform_data fftn rfftn scale (p_cm q) ds (real_dim real ds) (p_data q) (p_data t) /\
    ((real_dim real ds <> None -> good zero /\ Forall good (nd_flat (p_data p))) ->
     told (p_cm p) ds (real_dim real ds) (fun r => fast (r_len r)) ->
     forall names, asked_back (p_cm p) ds names ->
     exists r, idft ifftn irfftn unscale (mkF t true) names = Ok (mkF r false) /\ back p r ds).
Proof. exact @dft_padded. Qed.
Print Assumptions C48_roundtrip_padded.

(** correlate_shift moves each sample to where the coordinate holds its lag: the
    sample of bin k is at the position whose lag is k steps or k - n steps. *)
Theorem C48_lags : forall A (unscale : Z -> A -> A) (p : patch A) d undo r, wf_patch p -> plain_names (p_cm p) ->
  In d (cm_dims (p_cm p)) -> assoc d (cm_coords (p_cm p)) = Some (M1 (CRange r)) -> 2 <= r_len r ->
  (r_kind r = KTime \/ Z.even (r_len r) = true \/ r_len r < 100000) ->
  assoc ("lag_" ++ d)%string (cm_coords (p_cm p)) = None ->
  exists p', correlate_shift unscale p d undo = Ok p' /\ lagged unscale p p' d r undo.
Proof. exact @correlate_shift_ok. Qed.
Print Assumptions C48_lags.

(** ** The transform of length 4 on Gaussian integers *)
Definition C := (Z * Z)%type.
Definition cadd (a b : C) : C := (fst a + fst b, snd a + snd b).
Definition cneg (a : C) : C := (- fst a, - snd a).
Definition ctimes_i (a : C) : C := (- snd a, fst a).
Definition cdiv (k : Z) (a : C) : C := (fst a / k, snd a / k).
Definition cscale (k : Z) (a : C) : C := (k * fst a, k * snd a).
Definition is_real (a : C) : Prop := snd a = 0.
Definition dft4 (l : list C) : list C :=
  match l with
  | [a; b; c; d] =>
      [cadd (cadd a b) (cadd c d);
       cadd (cadd a (cneg (ctimes_i b))) (cadd (cneg c) (ctimes_i d));
       cadd (cadd a (cneg b)) (cadd c (cneg d));
       cadd (cadd a (ctimes_i b)) (cadd (cneg c) (cneg (ctimes_i d)))]
  | _ => l
  end.
Definition idft4 (l : list C) : list C :=
  match l with
  | [a; b; c; d] =>
      map (cdiv 4)
      [cadd (cadd a b) (cadd c d);
       cadd (cadd a (ctimes_i b)) (cadd (cneg c) (cneg (ctimes_i d)));
       cadd (cadd a (cneg b)) (cadd c (cneg d));
       cadd (cadd a (cneg (ctimes_i b))) (cadd (cneg c) (ctimes_i d))]
  | _ => l
  end.
Definition fft4 (axes : list nat) (a : nd C) : nd C :=
  match axes with [] => a | _ => mkNd (nd_shape a) (dft4 (nd_flat a)) end.
Definition ifft4 (s : option (list Z)) (axes : list nat) (a : nd C) : nd C :=
  match axes with [] => a | _ => mkNd (nd_shape a) (idft4 (nd_flat a)) end.
Definition rfft4 (axes : list nat) (a : nd C) : nd C := mkNd [3] (firstn 3 (dft4 (nd_flat a))).
Definition irfft4 (s : option (list Z)) (axes : list nat) (a : nd C) : nd C :=
  mkNd [4] (match nd_flat a with [a; b; c] => idft4 [a; b; c; (fst b, - snd b)] | l => l end).

Lemma dft4_undo a b c d : idft4 (dft4 [a; b; c; d]) = [a; b; c; d].
Proof.
  destruct a, b, c, d. cbn [dft4 idft4 map]. unfold cdiv, cadd, cneg, ctimes_i. cbn [fst snd].
  repeat (f_equal; try lia).
Qed.
Lemma rfft4_undo a b c d : is_real a -> is_real b -> is_real c -> is_real d ->
  let f := dft4 [a; b; c; d] in idft4 (firstn 3 f ++ [(fst (nth 1 f a), - snd (nth 1 f a))]) = [a; b; c; d].
Proof.
  unfold is_real. destruct a, b, c, d. cbn [snd]. intros -> -> -> ->. cbn. unfold cdiv, cadd, cneg, ctimes_i. cbn [fst snd].
  repeat (f_equal; try lia).
Qed.
Lemma axes4 axes : axes_of [4] axes -> axes = [] \/ axes = [0%nat].
Proof.
  intros [N H]. destruct axes as [|x t]; [left; reflexivity|]. right. assert (x = 0%nat) by (specialize (H x (or_introl eq_refl)); cbn in H; lia). subst x.
  destruct t as [|y t]; [reflexivity|]. exfalso. assert (y = 0%nat) by (specialize (H y (or_intror (or_introl eq_refl))); cbn in H; lia). subst y.
  inversion N as [|? ? Q]; subst. apply Q. left. reflexivity.
Qed.
Lemma fits4 (a : nd C) : fits [4] a -> exists x y z w, a = mkNd [4] [x; y; z; w].
Proof.
  intros [[P L] S]. destruct a as [s l]. cbn [nd_shape nd_flat] in *. subst s. change (size [4]) with 4 in L. unfold zlen in L.
  destruct l as [|x [|y [|z [|w [|v l]]]]]; cbn [List.length] in L; try lia. eauto.
Qed.
Lemma last_axis axes x : axes_of [4] (axes ++ [x]) -> axes = [] /\ x = 0%nat.
Proof.
  intros A. destruct (axes4 _ A) as [Q|Q]; [destruct axes; discriminate|].
  destruct axes as [|y [|z t]]; [split; [reflexivity|cbn in Q; congruence]|discriminate|discriminate].
Qed.
Lemma contract4 : fft_contract [4] is_real fft4 rfft4 ifft4 irfft4 cscale cdiv.
Proof.
  split.
  - intros axes a F A. destruct (axes4 axes A) as [-> | ->]; [exact F|]. destruct (fits4 a F) as (x & y & z & w & ->).
    split; [|reflexivity]. split; [repeat constructor; lia|reflexivity].
  - intros axes x a F A. destruct (last_axis axes x A) as [-> ->]. destruct (fits4 a F) as (p & y & z & w & ->).
    split; [|reflexivity]. split; [repeat constructor; lia|reflexivity].
  - intros axes axes' a F A P. destruct (axes4 axes A) as [-> | ->].
    + apply Permutation_nil in P. subst axes'. reflexivity.
    + assert (axes' = [0%nat]) as -> by (apply Permutation_length_1_inv in P; exact P).
      destruct (fits4 a F) as (x & y & z & w & ->). unfold ifft4, fft4. cbn [nd_shape nd_flat]. rewrite dft4_undo. reflexivity.
  - intros axes axes' x a F G A P. destruct (last_axis axes x A) as [-> ->]. apply Permutation_nil in P. subst axes'.
    destruct (fits4 a F) as (p & y & z & w & ->). unfold irfft4, rfft4. cbn [nd_shape nd_flat] in *.
    inversion G as [|? ? G1 G']; subst. inversion G' as [|? ? G2 G'']; subst. inversion G'' as [|? ? G3 G3']; subst. inversion G3' as [|? ? G4 _]; subst.
    f_equal. exact (rfft4_undo p y z w G1 G2 G3 G4).
  - intros k [x y] K. unfold cdiv, cscale. cbn [fst snd]. rewrite (Z.mul_comm k x), (Z.mul_comm k y), !Z.div_mul by exact K. reflexivity.
Qed.

Definition sig_cm (k : kind) (start step n : Z) : cman :=
  mkCm ["time"] [("time", range_of k start step n); ("q", MN KInt (mkNd [] [5]))] [("time", ["time"]); ("q", [])].
Definition sig (start step : Z) (l : list C) : patch C := mkPatch (sig_cm KTime start step (zlen l)) (mkNd [zlen l] l).
Definition next4 (n : Z) : Z := if n <=? 4 then 4 else n.
Definition plain (x : Z) : C := (x, 0).

Definition cflat (r : result (fpatch C)) : list C := match r with Ok p => nd_flat (p_data (f_patch p)) | Err _ => [] end.
Definition ccoord (r : result (fpatch C)) (n : string) : option mcoord :=
  match r with Ok p => assoc n (cm_coords (p_cm (f_patch p))) | Err _ => None end.
Definition zflat (r : result (fpatch Z)) : list Z := match r with Ok p => nd_flat (p_data (f_patch p)) | Err _ => [] end.
Definition sig3 : patch C := sig 1000 10 [plain 5; plain (-2); plain 7].
Definition dft4_3 (real : realarg) := dft (plain 0) next4 fft4 rfft4 cscale (mkF sig3 false) None real true.
Definition back4 (r : result (fpatch C)) := do t <- r; idft ifft4 irfft4 cdiv t None.


Lemma sig3_ok : wf_patch sig3 /\ all_settled (p_cm sig3) /\ plain_names (p_cm sig3) /\
  even_dims_of (p_cm sig3) ["time"] /\ free_names (p_cm sig3) ["time"] /\
  (forall d r, In d ["time"] -> assoc d (cm_coords (p_cm sig3)) = Some (M1 (CRange r)) -> r = mkRange KTime 1000 1030 10 3).
Proof.
  destruct (patch_okb_ok sig3) as [W P]; [vm_compute; reflexivity|]. split; [exact W|]. split.
  { intros n m E. cbn [assoc cm_coords sig3 sig sig_cm p_cm] in E. destruct (String.eqb n "time"); [assert (m = range_of KTime 1000 10 3) as -> by (injection E as <-; reflexivity); reflexivity|].
    destruct (String.eqb n "q"); [|discriminate]. injection E as <-. reflexivity. }
  split; [exact P|]. split; [|split].
  - split; [repeat constructor; intros []|]. split; [discriminate|]. intros d [<-|[]]. split; [left; reflexivity|]. eexists. reflexivity.
  - intros d [<-|[]]. vm_compute. repeat split; reflexivity.
  - intros d r [<-|[]] E. vm_compute in E. congruence.
Qed.

(** Three samples padded to four, complex and real, and back. *)
Example C48_witness :
  (fft_contract (dft_shape next4 true (p_cm sig3) ["time"] (nd_shape (p_data sig3))) is_real fft4 rfft4 ifft4 irfft4 cscale cdiv) /\
  (is_real (plain 0) /\ Forall is_real (nd_flat (p_data sig3))) /\
  told (p_cm sig3) ["time"] (real_dim RLast ["time"]) (fun r => next4 (r_len r)) /\
  told (p_cm sig3) ["time"] (real_dim RNo ["time"]) (fun r => next4 (r_len r)) /\
  asked_back (p_cm sig3) ["time"] None /\ asked_back (p_cm sig3) ["time"] (Some ["time"]) /\
  cflat (dft4_3 RNo) = [(140, 0); (-20, -20); (100, 0); (-20, 20)] /\
  cflat (dft4_3 RLast) = [(100, 0); (-20, 20); (140, 0)] /\
  ccoord (dft4_3 RNo) "ft_time" = Some (range_of KInt (-2) 1 4) /\
  ccoord (dft4_3 RLast) "ft_time" = Some (range_of KInt 0 1 3) /\
  back4 (dft4_3 RNo) = back4 (dft4_3 RLast) /\
  cflat (back4 (dft4_3 RNo)) = [(5, 0); (-2, 0); (7, 0)] /\
  ccoord (back4 (dft4_3 RNo)) "time" = Some (range_of KTime 1000 10 3).
Proof.
  split; [exact contract4|]. split; [split; [reflexivity|repeat constructor]|].
  destruct sig3_ok as (_ & _ & _ & _ & _ & T).
  split; [intros d r I E; rewrite (T d r I E); destruct I as [<-|[]]; left; reflexivity|].
  split; [intros d r I E; rewrite (T d r I E); destruct I as [<-|[]]; right; vm_compute; discriminate|].
  split; [intros d J; destruct J as [<-|[]]; reflexivity|]. split; [exists ["time"]; split; [apply Permutation_refl|]; constructor; [left; reflexivity|constructor]|].
  repeat split; vm_compute; reflexivity.
Qed.

(** Four samples, and five: zero lag is the first sample of the input. *)
Example C48_lags_witness :
  wf_patch (one_p KTime 0 10 5) /\ plain_names (p_cm (one_p KTime 0 10 5)) /\
  flat (correlate_shift Z.div (one_p KTime 0 10 5) "time" false) = [3; 4; 0; 1; 2] /\
  coords (correlate_shift Z.div (one_p KTime 0 10 5) "time" false) "lag_time" = Some (range_of KTime (-20) 10 5) /\
  flat (correlate_shift Z.div (one_p KTime 0 10 4) "time" false) = [2; 3; 0; 1] /\
  coords (correlate_shift Z.div (one_p KTime 0 10 4) "time" false) "lag_time" = Some (range_of KTime (-20) 10 4).
Proof.
  destruct (patch_okb_ok (one_p KTime 0 10 5)) as [W P]; [vm_compute; reflexivity|].
  split; [exact W|]. split; [exact P|]. repeat split; vm_compute; reflexivity.
Qed.

(** ** What the inverse cannot restore *)

(** The transforms of lengths 1 and 2. *)
Definition fft1 (axes : list nat) (a : nd C) : nd C := a.
Definition ifft1 (s : option (list Z)) (axes : list nat) (a : nd C) : nd C := a.
Definition irfft1 (s : option (list Z)) (axes : list nat) (a : nd C) : nd C :=
  mkNd (nd_shape a) (map (fun x => (fst x, 0)) (nd_flat a)).
Definition sum_diff (axes : list nat) (a : nd Z) : nd Z :=
  mkNd (nd_shape a) (match nd_flat a with [x; y] => [x + y; x - y] | l => l end).
Definition half (s : option (list Z)) (axes : list nat) (a : nd Z) : nd Z :=
  mkNd (nd_shape a) (match nd_flat a with [x; y] => [(x + y) / 2; (x - y) / 2] | l => l end).

Lemma contract2 : fft_contract [2] (fun _ => True) sum_diff sum_diff half half Z.mul (fun k x => x / k).
Proof.
  assert (F2 : forall a : nd Z, fits [2] a -> exists x y, a = mkNd [2] [x; y]).
  { intros [s l] [[P L] S]. cbn [nd_shape nd_flat] in *. subst s. change (size [2]) with 2 in L. unfold zlen in L.
    destruct l as [|x [|y [|z l]]]; cbn [List.length] in L; try lia. eauto. }
  assert (F : forall axes a, fits [2] a -> fits [2] (sum_diff axes a)).
  { intros axes a H. destruct (F2 a H) as (x & y & ->). split; [|reflexivity]. split; [repeat constructor; lia|reflexivity]. }
  assert (U : forall s axes axes' a, fits [2] a -> half s axes' (sum_diff axes a) = a).
  { intros s axes axes' a H. destruct (F2 a H) as (x & y & ->). unfold half, sum_diff. cbn [nd_flat nd_shape]. repeat (f_equal; try lia). }
  split; auto.
  - intros axes x a H A. assert (x = 0%nat) as -> by (destruct A as [_ A]; specialize (A x); cbn in A; rewrite in_app_iff in A; cbn in A; specialize (A (or_intror (or_introl eq_refl))); lia).
    apply (F (axes ++ [0%nat]) a H).
  - intros k x K. rewrite Z.mul_comm, Z.div_mul by exact K. reflexivity.
Qed.

(** One complex sample: the only frequency is zero, so the inverse takes the
    transform for a real one and drops the imaginary part. *)
Theorem C48_one_complex_sample_refuted : wf_patch (sig 0 10 [(0, 1)]) /\
  cflat (do t <- dft (plain 0) next4 fft1 fft1 cscale (mkF (sig 0 10 [(0, 1)]) false) None RNo false;
         idft ifft1 irfft1 cdiv t None) = [(0, 0)].
Proof.
  split.
  - destruct (patch_okb_ok (sig 0 10 [(0, 1)])) as [W P]; [vm_compute; reflexivity|exact W].
  - vm_compute. reflexivity.
Qed.
Print Assumptions C48_one_complex_sample_refuted.

(** Two dimensions of one sample each: the inverse sees two real transforms. *)
Theorem C48_two_single_samples_refuted :
  let p := mkPatch (mkCm ["x"; "y"] [("x", range_of KInt 0 1 1); ("y", range_of KInt 0 1 1)] [("x", ["x"]); ("y", ["y"])])
             (mkNd [1; 1] [7]) in
  let t := dft 0 even_len (fun _ a => a) (fun _ a => a) Z.mul (mkF p false) None RNo false in
  wf_patch p /\ zflat t = [7] /\
  (do t <- t; idft (fun _ _ a => a) (fun _ _ a => a) (fun k x => x / k) t None) = Err AssertionError.
Proof.
  cbv zeta. split.
  - match goal with |- wf_patch ?p => destruct (patch_okb_ok p) as [W P]; [vm_compute; reflexivity|exact W] end.
  - split; vm_compute; reflexivity.
Qed.
Print Assumptions C48_two_single_samples_refuted.

(** A descending coordinate: the frequencies of a real transform descend from
    zero, so that the inverse does not recognise it, while the complex transform
    of two samples is taken for a real one. *)
Theorem C48_descending_refuted :
  let p := mkPatch (mkCm ["time"] [("time", range_of KInt 10 (-10) 2)] [("time", ["time"])]) (mkNd [2] [3; 5]) in
  wf_patch p /\
  fft_contract [2] (fun _ => True) sum_diff sum_diff half half Z.mul (fun k x => x / k) /\
  zflat (do t <- dft 0 even_len sum_diff sum_diff Z.mul (mkF p false) None RLast false; idft half half (fun k x => x / k) t None) = [3; -5] /\
  zflat (do t <- dft 0 even_len sum_diff sum_diff Z.mul (mkF p false) None RNo false; idft half half (fun k x => x / k) t None) = [3; -5].
Proof.
  cbv zeta. split.
  { match goal with |- wf_patch ?p => destruct (patch_okb_ok p) as [W P]; [vm_compute; reflexivity|exact W] end. }
  split; [exact contract2|].
  split; vm_compute; reflexivity.
Qed.
Print Assumptions C48_descending_refuted.

(** The flag that a patch was padded is one per patch, not one per dimension. *)
Definition same2 (axes : list nat) (a : nd Z) : nd Z := a.
Definition isame2 (s : option (list Z)) (axes : list nat) (a : nd Z) : nd Z := a.
Definition sq_p : patch Z := mkPatch
  (mkCm ["time"; "dist"] [("time", range_of KTime 0 10 3); ("dist", range_of KInt 0 1 3)] [("time", ["time"]); ("dist", ["dist"])])
  (mkNd [3; 3] (zrange 9)).
Definition dft2 (fp : result (fpatch Z)) (d : list string) (pad : bool) : result (fpatch Z) :=
  do fp <- fp; dft 0 even_len same2 same2 Z.mul fp (Some d) RNo pad.
Definition idft2 (fp : result (fpatch Z)) (d : list string) : result (fpatch Z) :=
  do fp <- fp; idft isame2 isame2 (fun k x => x / k) fp (Some d).
Definition fshape (r : result (fpatch Z)) : list Z := match r with Ok p => nd_shape (p_data (f_patch p)) | Err _ => [] end.

(** Transforming one dimension without and another with padding: the first can no
    longer be transformed back on its own. *)
Theorem C48_padding_mixed_refuted : wf_patch sq_p /\
  fshape (dft2 (dft2 (Ok (mkF sq_p false)) ["time"] false) ["dist"] true) = [3; 4] /\
  idft2 (dft2 (dft2 (Ok (mkF sq_p false)) ["time"] false) ["dist"] true) ["time"] = Err KeyError.
Proof.
  split; [|split].
  - destruct (patch_okb_ok sq_p) as [W P]; [vm_compute; reflexivity|exact W].
  - vm_compute. reflexivity.
  - vm_compute. reflexivity.
Qed.
Print Assumptions C48_padding_mixed_refuted.

(** Going back in two steps, or transforming another dimension without padding
    afterwards: the padding stays. *)
Theorem C48_padding_kept_refuted :
  fshape (idft2 (dft2 (Ok (mkF sq_p false)) ["time"; "dist"] true) ["time"; "dist"]) = [3; 3] /\
  fshape (idft2 (idft2 (dft2 (Ok (mkF sq_p false)) ["time"; "dist"] true) ["dist"]) ["time"]) = [4; 3] /\
  fshape (idft2 (dft2 (dft2 (Ok (mkF sq_p false)) ["time"] true) ["dist"] false) ["time"; "dist"]) = [4; 3].
Proof. repeat split; vm_compute; reflexivity. Qed.
Print Assumptions C48_padding_kept_refuted.

(** correlate_shift of a single sample fails. *)
Theorem C48_lag_single_refuted : correlate_shift Z.div (one_p KTime 0 10 1) "time" false = Err CoordError.
Proof. vm_compute. reflexivity. Qed.
Print Assumptions C48_lag_single_refuted.

(** An odd number of samples from 200001 on along a dimension that is not a time:
    the missing sample is within the relative tolerance of change_length, which
    fails its assertion. *)
Theorem C48_lag_long_refuted : lag_coord (mkRange KInt 0 200001 1 200001) = Err AssertionError /\
  lag_coord (mkRange KInt 0 99999 1 99999) = Ok (CRange (mkRange KInt (-49999) 50000 1 99999)).
Proof. split; vm_compute; reflexivity. Qed.
Print Assumptions C48_lag_long_refuted.
