(** Lemmas behind MoveProps.v: windows of patches (C82, C83). *)
From Verif Require Import Base BaseFacts CoordModel CoordSpec CoordProofs CoordProofs5 NdModel NdSpec NdProofs FrameModel ChunkModel ChunkProofs3
  CmModel CmSpec CmProofs CmProofs2 CmProofs3 CmProofs13 TaperProofs2 MergeProofs7 MuteModel MuteProofs2 CalcModel CalcProofs CalcProofs3 MoveModel MoveSpec MoveProofs MoveProofs2 MoveProofs3 MoveProofs4.
From Coq Require Import Strings.String ZifyBool QArith Qabs Lqa Sorting.Permutation Sorting.Sorted.
Local Open Scope Z_scope.
Local Open Scope list_scope.

Lemma named_all {V} dims (kw : list (string * V)) : kw <> [] -> (forall e, In e kw -> In (fst e) dims) -> named_dims dims kw = Ok kw.
Proof.
  intros N H. unfold named_dims. assert (F : filter (fun e => mem (fst e) dims) kw = kw).
  { clear N. induction kw as [|e kw IH]; [reflexivity|]. cbn [filter]. rewrite (proj2 (mem_dims (fst e) dims)) by (apply H; left; reflexivity).
    f_equal. apply IH. intros x I. apply H. right. exact I. }
  rewrite F. destruct kw as [|e kw]; [congruence|]. rewrite Z.eqb_refl. reflexivity.
Qed.
Lemma axis_idx cm d : In d (cm_dims cm) -> get_axis cm d = Ok (idx (cm_dims cm) d).
Proof.
  intros I. apply index_of_In in I. destruct I as [n E]. unfold get_axis, idx. rewrite E. reflexivity.
Qed.
Lemma put_sizes_ok f cm g l : forall init, (forall e, In e l -> f e = Ok (g e) /\ In (fst e) (cm_dims cm)) ->
  put_sizes f cm l init = Ok (fold_left (fun s e => put s (idx (cm_dims cm) (fst e)) (g e)) l init).
Proof.
  unfold put_sizes. induction l as [|e l IH]; intros init H; [reflexivity|]. cbn [fold_left].
  destruct (H e (or_introl eq_refl)) as [E I]. cbn [bind]. rewrite E. cbn [bind]. rewrite (axis_idx cm _ I). cbn [bind].
  apply IH. intros x J. apply H. right. exact J.
Qed.

Lemma even_is n : Z.even n = negb (n mod 2 =? 1).
Proof. rewrite <- Z.negb_odd. f_equal. destruct (Z.odd n) eqn:V; [apply odd_mod in V|apply even_mod in V]; lia. Qed.
Definition got (r : result Z) : Z := match r with Ok n => n | Err _ => 0 end.
Definition counted (p : patch Q) (samples : bool) (e : string * Z) : Z := got (size_one (p_cm p) samples e).
Lemma range_wf (p : patch Q) d r : wf_patch p -> assoc d (cm_coords (p_cm p)) = Some (M1 (CRange r)) -> wf_range r.
Proof. intros W E. exact (wf_vals _ (wp_cm _ W) _ _ E). Qed.
Lemma counted_ok (p : patch Q) samples odd least kw e : wf_patch p -> 1 <= least -> windows_given p samples odd least kw -> In e kw ->
  size_one (p_cm p) samples e = Ok (counted p samples e) /\ asked_size p samples (fst e) (snd e) (counted p samples e) /\ least <= counted p samples e.
Proof.
  intros W L [_ H] I. destruct e as [d v]. destruct (H d v I) as (Id & r & E & C). unfold counted, size_one. cbn [fst snd]. rewrite E.
  destruct samples.
  - unfold sample_count_samples. cbn [andb got]. destruct C as [C _]. split; [reflexivity|]. split; [reflexivity|lia].
  - destruct C as [S C]. destruct (sample_count_spec r v false (range_wf _ _ _ W E) S) as (n & B & Q); [nia|]. rewrite Q. cbn [andb got].
    split; [reflexivity|]. split; [exists r; auto|nia].
Qed.

Definition windowed (p : patch Q) (samples odd : bool) (least : Z) (e : string * Z) : Z := got (window_one (p_cm p) samples odd least e).
Lemma windowed_ok (p : patch Q) samples odd least kw e : wf_patch p -> 1 <= least -> windows_given p samples odd least kw -> In e kw ->
  window_one (p_cm p) samples odd least e = Ok (windowed p samples odd least e) /\
  (exists n, asked_size p samples (fst e) (snd e) n /\ windowed p samples odd least e = if odd && Z.even n then n + 1 else n) /\
  least <= windowed p samples odd least e /\ (odd = true -> windowed p samples odd least e mod 2 = 1).
Proof.
  intros W L [N H] I. pose proof (counted_ok p samples odd least kw e W L (conj N H) I) as (S1 & A & G).
  destruct e as [d v]. destruct (H d v I) as (Id & r & E & C). unfold windowed, window_one. unfold size_one in S1. cbn [fst snd] in *. rewrite E in *.
  rewrite S1. cbn [bind]. set (n := counted p samples (d, v)) in *. clearbody n. destruct (n <? least) eqn:Q; [lia|].
  assert (M : Z.even n = negb (n mod 2 =? 1)) by apply even_is.
  destruct odd; cbn [andb].
  - destruct (n mod 2 =? 1) eqn:O; cbn [negb got].
    + split; [reflexivity|]. split; [exists n; rewrite M; auto|]. split; [lia|]. intros _. lia.
    + destruct samples; cbn [got].
      * exfalso. cbn in A. subst v. destruct C as [_ C]. specialize (C eq_refl). lia.
      * split; [reflexivity|]. split; [exists n; rewrite M; auto|]. split; [lia|]. intros _. dlia.
  - cbn [got]. split; [reflexivity|]. split; [exists n; auto|]. split; [lia|]. discriminate.
Qed.
Lemma nth_ones (dims : list string) ax d : nth_error dims ax = Some d -> nth_error (map (fun _ => 1) dims) ax = Some 1.
Proof. intros E. rewrite nth_error_map, E. reflexivity. Qed.

Lemma folded_sizes (p : patch Q) (g : string * Z -> Z) kw : wf_patch p -> NoDup (map fst kw) -> (forall d v, In (d, v) kw -> In d (cm_dims (p_cm p))) ->
  let s := fold_left (fun s e => put s (idx (cm_dims (p_cm p)) (fst e)) (g e)) kw (map (fun _ => 1) (cm_dims (p_cm p))) in
  List.length s = List.length (cm_dims (p_cm p)) /\
  forall ax d, nth_error (cm_dims (p_cm p)) ax = Some d -> nth_error s ax = Some (match assoc d kw with Some v => g (d, v) | None => 1 end).
Proof.
  intros W N H. cbv zeta. destruct (fold_put (cm_dims (p_cm p)) g kw (map (fun _ => 1) (cm_dims (p_cm p))) (wf_dims _ (wp_cm _ W)) N) as [A B].
  - intros [d v] I. apply (H d v I).
  - apply map_length.
  - split; [exact A|]. intros ax d E. rewrite (B ax d E). destruct (assoc d kw); [reflexivity|]. apply (nth_ones _ _ _ E).
Qed.

Lemma window_size_ok (p : patch Q) samples odd least kw : wf_patch p -> 1 <= least -> windows_given p samples odd least kw ->
  exists sizes, window_size (p_cm p) kw samples odd least = Ok sizes /\ asked_sizes p samples odd kw sizes /\
    Forall (fun w => 1 <= w) sizes /\ (odd = true -> Forall (fun w => w mod 2 = 1) sizes).
Proof.
  intros W L G. set (g := windowed p samples odd least).
  destruct (folded_sizes p g kw W (proj1 G)) as [A B]; [intros d v I; apply (proj2 G d v I)|].
  set (s := fold_left (fun s e => put s (idx (cm_dims (p_cm p)) (fst e)) (g e)) kw (map (fun _ => 1) (cm_dims (p_cm p)))) in *.
  exists s. split.
  { assert (U : kw = [] \/ kw <> []) by (destruct kw; [left; reflexivity|right; discriminate]).
    destruct U as [U|U]; [subst kw; reflexivity|].
    assert (V : window_size (p_cm p) kw samples odd least = do l <- named_dims (cm_dims (p_cm p)) kw; put_sizes (window_one (p_cm p) samples odd least) (p_cm p) l (map (fun _ => 1) (cm_dims (p_cm p)))) by (destruct kw; [congruence|reflexivity]).
    rewrite V, named_all; [|exact U|intros [d v] I; apply (proj2 G d v I)]. cbn [bind]. rewrite (put_sizes_ok _ _ g); [reflexivity|]. intros [d v] I.
    split; [apply (windowed_ok p samples odd least kw (d, v) W L G I)|apply (proj2 G d v I)]. }
  assert (X : forall ax w, nth_error s ax = Some w -> 1 <= w /\ (odd = true -> w mod 2 = 1)).
  { intros ax w E. assert (Y : (ax < List.length (cm_dims (p_cm p)))%nat) by (rewrite <- A; apply nth_error_Some; congruence).
    apply nth_error_Some in Y. destruct (nth_error (cm_dims (p_cm p)) ax) as [d|] eqn:D; [|congruence].
    rewrite (B ax d D) in E. destruct (assoc d kw) as [v|] eqn:V; injection E as <-.
    - apply assoc_in in V. destruct (windowed_ok p samples odd least kw (d, v) W L G V) as (_ & _ & U & O). fold g in U, O. split; [lia|exact O].
    - split; [lia|reflexivity]. }
  split; [split; [exact A|]|split].
  - intros ax d w D E. rewrite (B ax d D) in E. injection E as <-. destruct (assoc d kw) as [v|] eqn:V; [|reflexivity].
    apply assoc_in in V. destruct (windowed_ok p samples odd least kw (d, v) W L G V) as (_ & (n & N & K) & _). fold g in K. cbn [fst snd] in N.
    destruct samples; cbn in N.
    + subst v. destruct (proj2 G d n V) as (_ & r & _ & _ & O). rewrite K. destruct odd; [|reflexivity]. specialize (O eq_refl).
      cbn [andb]. destruct (Z.even n) eqn:V'; [|reflexivity]. rewrite even_is in V'. lia.
    + destruct N as (r & E & N). exists r, n. auto.
  - apply Forall_forall. intros w I. apply In_nth_error in I. destruct I as [ax E]. apply (X ax w E).
  - intros O. apply Forall_forall. intros w I. apply In_nth_error in I. destruct I as [ax E]. apply (X ax w E), O.
Qed.

Lemma sizes_axes_ok (p : patch Q) samples kw : wf_patch p -> kw <> [] -> windows_given p samples false 1 kw ->
  sizes_axes (p_cm p) kw samples = Ok (map (fun e => (counted p samples e, idx (cm_dims (p_cm p)) (fst e))) kw).
Proof.
  intros W N G. unfold sizes_axes. rewrite named_all; [|exact N|intros [d v] I; apply (proj2 G d v I)]. cbn [bind].
  apply map_result_ok. intros [d v] I. destruct (counted_ok p samples false 1 kw (d, v) W ltac:(lia) G I) as (E & _).
  rewrite E. cbn [bind]. rewrite axis_idx by apply (proj2 G d v I). reflexivity.
Qed.
Lemma fold_map {A B C} (f : A -> C -> A) (h : B -> C) l : forall a, fold_left f (map h l) a = fold_left (fun a x => f a (h x)) l a.
Proof. induction l as [|x l IH]; intros a; [reflexivity|]. cbn. apply IH. Qed.

Lemma same_shape (p : patch Q) (b : nd Q) : wf_patch p -> wf_nd b -> nd_shape b = nd_shape (p_data p) ->
  new_patch (p_cm p) b = Ok (mkPatch (p_cm p) b).
Proof.
  intros W Wb S. apply new_patch_ok; [apply (wp_cm _ W)|exact Wb|apply (wp_some _ W)|rewrite S; apply (wp_shape _ W)].
Qed.
Lemma dims_shape (p : patch Q) : wf_patch p -> List.length (nd_shape (p_data p)) = List.length (cm_dims (p_cm p)).
Proof. intros W. symmetry. apply (f2_len (wp_shape _ W)). Qed.

(** ** Medians *)
Lemma median_ok (p : patch Q) samples md cval kw : wf_patch p -> kw <> [] -> windows_given p samples false 1 kw ->
  exists q sizes, pt_median_filter samples md cval kw p = Ok q /\ asked_sizes p samples false kw sizes /\
    p_cm q = p_cm p /\ box_medians md cval sizes (p_data p) (p_data q).
Proof.
  intros W N G. unfold pt_median_filter. rewrite (sizes_axes_ok p samples kw W N G). cbn [bind]. rewrite fold_map. cbn [fst snd].
  set (g := counted p samples). destruct (folded_sizes p g kw W (proj1 G)) as [A B]; [intros d v I; apply (proj2 G d v I)|].
  set (s := fold_left (fun s e => put s (idx (cm_dims (p_cm p)) (fst e)) (g e)) kw (map (fun _ => 1) (cm_dims (p_cm p)))) in *.
  change (fold_left _ kw (map (fun _ => 1) (cm_dims (p_cm p)))) with s.
  assert (X : forall w, In w s -> 1 <= w).
  { intros w I. apply In_nth_error in I. destruct I as [ax E]. assert (Y : (ax < List.length (cm_dims (p_cm p)))%nat) by (rewrite <- A; apply nth_error_Some; congruence).
    apply nth_error_Some in Y. destruct (nth_error (cm_dims (p_cm p)) ax) as [d|] eqn:D; [|congruence].
    rewrite (B ax d D) in E. destruct (assoc d kw) as [v|] eqn:V; injection E as <-; [|lia]. apply assoc_in in V.
    apply (counted_ok p samples false 1 kw (d, v) W ltac:(lia) G V). }
  assert (Y : existsb (fun w => w <? 1) s = false).
  { destruct (existsb (fun w => w <? 1) s) eqn:Q; [|reflexivity]. apply existsb_exists in Q. destruct Q as (w & I & Q). apply X in I. lia. }
  rewrite Y. destruct (box_median_ok md cval s (p_data p) (wp_nd _ W)) as (b & Eb & H).
  - rewrite A. symmetry. apply dims_shape, W.
  - apply Forall_forall. exact X.
  - rewrite Eb. cbn [opt_result bind]. rewrite same_shape; [|exact W|apply H|apply H]. exists (mkPatch (p_cm p) b), s. split; [reflexivity|].
    split; [split; [exact A|]|split; [reflexivity|exact H]].
    intros ax d w D E. rewrite (B ax d D) in E. injection E as <-. destruct (assoc d kw) as [v|] eqn:V; [|reflexivity].
    apply assoc_in in V. destruct (counted_ok p samples false 1 kw (d, v) W ltac:(lia) G V) as (_ & C & _). fold g in C. cbn [fst snd] in C.
    destruct samples; [exact C|]. destruct C as (r & E & C). exists r, (g (d, v)). auto.
Qed.

(** ** Weights *)
Lemma correlate_len ws md cval f : zlen (correlate ws md cval f) = zlen f.
Proof. unfold correlate. apply zlen_mapr. unfold zlen. lia. Qed.
Lemma weighted_ok ws md cval ax (a : nd Q) n : wf_nd a -> nth_error (nd_shape a) ax = Some n ->
  exists b, along (correlate ws md cval) ax a = Some b /\ weighted md cval ws ax a b.
Proof.
  intros W E. destruct (along_ok (correlate ws md cval) ax a n W E) as (b & Eb & Wb & Sb & H); [intros f F; rewrite correlate_len; exact F|].
  exists b. split; [exact Eb|]. split; [exact Wb|]. split; [exact Sb|]. intros ix i f I Ei L. destruct (H ix i f I Ei L) as [_ ->].
  destruct (get_axis_nth _ _ _ _ E I) as (i' & Ei' & B). rewrite Ei in Ei'. injection Ei' as <-.
  assert (Lf : zlen f = n) by (destruct L as [L _]; rewrite E in L; injection L as L; lia).
  exists (map (read md cval f) (centred (zlen ws) 0 i)). assert (Lw : 0 <= zlen ws) by (unfold zlen; lia). split; [|split].
  - rewrite zlen_map. apply centred_len, Lw.
  - intros k K. exists (read md cval f (i - zlen ws / 2 - 0 + k)). rewrite znth_map, centred_nth by exact K. split; [reflexivity|].
    replace (i - zlen ws / 2 + k) with (i - zlen ws / 2 - 0 + k) by lia. apply read_continued. lia.
  - unfold correlate. rewrite znth_mapr by lia. reflexivity.
Qed.
Lemma weighted_turns md cval l : forall a, wf_nd a -> (forall ws ax, In (ws, ax) l -> (ax < List.length (nd_shape a))%nat) ->
  exists b, fold_left (fun acc e => do x <- acc; opt_result (along (correlate (fst e) md cval) (snd e) x)) l (Ok a) = Ok b /\
    weighted_in_turn md cval l a b /\ wf_nd b /\ nd_shape b = nd_shape a.
Proof.
  induction l as [|[ws ax] l IH]; intros a W H; cbn [fold_left weighted_in_turn fst snd].
  - exists a. auto.
  - specialize (H ws ax (or_introl eq_refl)) as K. apply nth_error_Some in K. destruct (nth_error (nd_shape a) ax) as [n|] eqn:E; [|congruence].
    destruct (weighted_ok ws md cval ax a n W E) as (c & Ec & Rc). cbn [bind]. rewrite Ec. cbn [opt_result].
    destruct (IH c (proj1 Rc)) as (b & Eb & Rb & Wb & Sb).
    { intros ws' ax' I. rewrite (proj1 (proj2 Rc)). apply (H ws' ax'). right. exact I. }
    exists b. split; [exact Eb|]. split; [exists c; auto|]. split; [exact Wb|]. rewrite Sb. apply Rc.
Qed.

Definition others (ax k : nat) : list nat := filter (fun j => negb (Nat.eqb j ax)) (seq 0 k).
Lemma sobel_ok (p : patch Q) ax d mode md cval : wf_patch p -> nth_error (cm_dims (p_cm p)) ax = Some d -> parse_mode mode = Some md ->
  exists q, pt_sobel d mode cval p = Ok q /\ p_cm q = p_cm p /\
    weighted_in_turn md cval (([-(1); 0; 1]%Q, ax) :: map (fun k => ([1; 2; 1]%Q, k)) (others ax (List.length (cm_dims (p_cm p))))) (p_data p) (p_data q).
Proof.
  intros W D M. unfold pt_sobel. rewrite M. assert (X : get_axis (p_cm p) d = Ok ax) by (unfold get_axis; rewrite (index_of_nth _ _ _ (wf_dims _ (wp_cm _ W)) D); reflexivity). rewrite X. cbn [bind]. unfold sobel.
  assert (L : (ax < List.length (nd_shape (p_data p)))%nat) by (rewrite (dims_shape p W); apply nth_error_Some; congruence).
  pose proof (weighted_turns md cval (([-(1); 0; 1]%Q, ax) :: map (fun k => ([1; 2; 1]%Q, k)) (others ax (List.length (nd_shape (p_data p))))) (p_data p) (wp_nd _ W)) as T.
  destruct T as (b & Eb & Rb & Wb & Sb).
  { intros ws k [I|I]; [injection I as <- <-; exact L|]. apply in_map_iff in I. destruct I as (k' & I & J). injection I as <- <-.
    apply filter_In in J. destruct J as [J _]. apply in_seq in J. lia. }
  cbn [fold_left fst snd bind] in Eb. rewrite fold_map in Eb. cbn [fst snd] in Eb. unfold others in Eb. rewrite Eb. cbn [bind].
  rewrite same_shape by assumption. exists (mkPatch (p_cm p) b). split; [reflexivity|]. split; [reflexivity|]. rewrite <- (dims_shape p W). exact Rb.
Qed.
Lemma idx_lt dims d : In d dims -> (idx dims d < List.length dims)%nat.
Proof.
  intros I. unfold idx. apply index_of_In in I. destruct I as [n E]. rewrite E. apply index_of_spec in E. destruct E as [E _]. apply nth_error_Some. congruence.
Qed.
Lemma idx_nth dims d : In d dims -> nth_error dims (idx dims d) = Some d.
Proof. intros I. unfold idx. apply index_of_In in I. destruct I as [n E]. rewrite E. apply index_of_spec in E. apply E. Qed.

Lemma gaussian_ok weights (p : patch Q) samples md cval kw : wf_patch p -> kw <> [] -> windows_given p samples false 1 kw ->
  exists q l, pt_gaussian weights samples md cval kw p = Ok q /\ p_cm q = p_cm p /\
    Forall2 (fun e x => exists n, asked_size p samples (fst e) (snd e) n /\ fst x = weights n /\ nth_error (cm_dims (p_cm p)) (snd x) = Some (fst e)) kw l /\
    weighted_in_turn md cval l (p_data p) (p_data q).
Proof.
  intros W N G. unfold pt_gaussian. rewrite (sizes_axes_ok p samples kw W N G). cbn [bind]. rewrite fold_map. cbn [fst snd].
  set (l := map (fun e => (weights (counted p samples e), idx (cm_dims (p_cm p)) (fst e))) kw).
  destruct (weighted_turns md cval l (p_data p) (wp_nd _ W)) as (b & Eb & Rb & Wb & Sb).
  { intros ws k I. unfold l in I. apply in_map_iff in I. destruct I as ([d v] & I & J). injection I as _ <-. rewrite (dims_shape p W). apply idx_lt, (proj2 G d v J). }
  unfold l in Eb. rewrite fold_map in Eb. cbn [fst snd] in Eb. rewrite Eb. cbn [bind]. rewrite same_shape by assumption.
  exists (mkPatch (p_cm p) b), l. split; [reflexivity|]. split; [reflexivity|]. split; [|exact Rb].
  assert (H : forall e, In e kw -> exists n, asked_size p samples (fst e) (snd e) n /\ weights (counted p samples e) = weights n /\
     nth_error (cm_dims (p_cm p)) (idx (cm_dims (p_cm p)) (fst e)) = Some (fst e)).
  { intros [d v] I. exists (counted p samples (d, v)). destruct (counted_ok p samples false 1 kw (d, v) W ltac:(lia) G I) as (_ & A & _).
    split; [exact A|]. split; [reflexivity|]. apply idx_nth, (proj2 G d v I). }
  clear - H. unfold l. induction kw as [|e kw IH]; [constructor|]. cbn [map]. constructor; [apply (H e (or_introl eq_refl))|]. apply IH. intros x I. apply H. right. exact I.
Qed.

Lemma savgol_ok sg (p : patch Q) samples front d v : wf_patch p -> windows_given p samples false 1 (front ++ [(d, v)]) ->
  (forall w f, zlen (sg w f) = zlen f) ->
  exists q n ax, pt_savgol sg samples (front ++ [(d, v)]) p = Ok q /\ p_cm q = p_cm p /\ asked_size p samples d v n /\
    nth_error (cm_dims (p_cm p)) ax = Some d /\ lines_by (sg n) ax (p_data p) (p_data q).
Proof.
  intros W G S. assert (N : front ++ [(d, v)] <> []) by (destruct front; discriminate). unfold pt_savgol.
  rewrite (sizes_axes_ok p samples _ W N G). cbn [bind]. rewrite fold_map. cbn [fst snd]. rewrite fold_left_app. cbn [fold_left fst snd].
  assert (T : forall e, In e (front ++ [(d, v)]) -> exists b, along (sg (counted p samples e)) (idx (cm_dims (p_cm p)) (fst e)) (p_data p) = Some b /\
     lines_by (sg (counted p samples e)) (idx (cm_dims (p_cm p)) (fst e)) (p_data p) b).
  { intros [d' v'] I. cbn [fst]. pose proof (idx_lt _ _ (proj1 (proj2 G d' v' I))) as L. rewrite <- (dims_shape p W) in L. apply nth_error_Some in L.
    destruct (nth_error (nd_shape (p_data p)) (idx (cm_dims (p_cm p)) d')) as [m|] eqn:E; [|congruence].
    destruct (along_ok (sg (counted p samples (d', v'))) _ _ m (wp_nd _ W) E) as (b & Eb & Wb & Sb & H); [intros f F; rewrite S; exact F|].
    exists b. split; [exact Eb|]. split; [exact Wb|]. split; [exact Sb|]. intros ix i g I' Ei K. apply (H ix i g I' Ei K). }
  assert (F : exists x, fold_left (fun acc e => do _ <- acc; opt_result (along (sg (counted p samples e)) (idx (cm_dims (p_cm p)) (fst e)) (p_data p))) front (Ok (p_data p)) = Ok x).
  { assert (T' : forall e, In e front -> exists b, along (sg (counted p samples e)) (idx (cm_dims (p_cm p)) (fst e)) (p_data p) = Some b).
    { intros e I. destruct (T e) as (b & E & _); [apply in_or_app; left; exact I|]. eauto. }
    clear - T'. generalize (p_data p) at 2 as a0. induction front as [|e front IH]; intros a0; [exists a0; reflexivity|]. cbn [fold_left bind].
    destruct (T' e (or_introl eq_refl)) as (b & E). rewrite E. cbn [opt_result]. apply IH. intros x I. apply T'. right. exact I. }
  destruct F as [x F]. rewrite F. cbn [bind]. assert (I : In (d, v) (front ++ [(d, v)])) by (apply in_or_app; right; left; reflexivity).
  destruct (T _ I) as (b & Eb & H). cbn [fst] in *. rewrite Eb. cbn [opt_result bind]. rewrite same_shape; [|exact W|apply H|apply H].
  exists (mkPatch (p_cm p) b), (counted p samples (d, v)), (idx (cm_dims (p_cm p)) d). split; [reflexivity|]. split; [reflexivity|].
  split; [apply (counted_ok p samples false 1 _ (d, v) W ltac:(lia) G I)|]. split; [|exact H]. apply idx_nth, (proj2 G d v I).
Qed.
