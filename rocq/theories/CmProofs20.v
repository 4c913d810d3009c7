(** Forms of the squeeze, append and roll facts that use specification vocabulary
    only, the shape check of new patches, and soundness of well-formed patches. *)
From Verif Require Import Base BaseFacts CoordModel CoordSpec NdModel NdSpec FrameModel ChunkModel
  CmModel CmSpec CmProofs CmProofs2 CmProofs3 CmProofs12 CmProofs15 CmProofs16.
From Coq Require Import Strings.String.
Local Open Scope Z_scope.
Local Open Scope list_scope.

Lemma new_patch_exact {A} cm (a : nd A) : consistent cm -> cm_dims cm <> [] ->
  (Forall2 (dim_len cm) (cm_dims cm) (nd_shape a) -> new_patch cm a = Ok (mkPatch cm a)) /\
  (~ Forall2 (dim_len cm) (cm_dims cm) (nd_shape a) -> new_patch cm a = Err CoordDataError).
Proof.
  intros C N. split; intros F.
  - unfold new_patch. rewrite (cm_shape_spec _ _ N F). cbn [bind].
    rewrite (proj2 (zlist_eqb_eq _ _) eq_refl). reflexivity.
  - assert (exists s, Forall2 (dim_len cm) (cm_dims cm) s) as (s & Fs).
    { pose proof (con_dim _ C) as CD. clear - CD. induction (cm_dims cm) as [|d ds IH]; [exists []; constructor|].
      destruct IH as (s & F); [intros x J; apply CD; right; exact J|].
      destruct (CD d (or_introl eq_refl)) as [(c & E) _]. exists (c_len c :: s). constructor; [exists c; auto|exact F]. }
    unfold new_patch. rewrite (cm_shape_spec _ _ N Fs). cbn [bind].
    destruct (zlist_eqb s (nd_shape a)) eqn:Q; [|reflexivity]. apply zlist_eqb_eq in Q. subst s. contradiction.
Qed.

Lemma wf_sound {A} (p : patch A) : wf_patch p -> sound p.
Proof.
  intros W. split; [apply (wf_con _ (wp_cm _ W))|]. split.
  - intros n m J. pose proof (wf_vals _ (wp_cm _ W) n m (in_assoc _ _ _ (wf_ckeys _ (wp_cm _ W)) J)) as V.
    destruct m; cbn in *; tauto.
  - pose proof (wp_some _ W) as N. pose proof (wp_shape _ W) as F. destruct (cm_dims (p_cm p)); [congruence|exact F].
Qed.

Lemma dropped_plain cm l n : droppedb cm l n = true <-> (In n l \/ exists d, In d l /\ In d (dims_of cm n)).
Proof.
  rewrite droppedb_spec. unfold dropped, dims_of. split; (intros [H|H]; [left; exact H|right]).
  - destruct H as (ds & d & E & J1 & J2). rewrite E. exists d; auto.
  - destruct H as (d & J1 & J2). destruct (assoc n (cm_dmap cm)) as [ds|]; [|destruct J2]. exists ds, d; auto.
Qed.

Lemma pt_squeeze_plain {A} (p : patch A) dim l : wf_patch p ->
  match dim with
  | Some l' => l = l' /\ NoDup l'
  | None => forall d, In d l <-> In d (cm_dims (p_cm p)) /\ exists n, dim_len (p_cm p) d n /\ n <= 1
  end ->
  (forall d, In d l -> dim_len (p_cm p) d 1 /\ In d (cm_dims (p_cm p))) ->
  (exists d, In d (cm_dims (p_cm p)) /\ ~ In d l) ->
  exists p', pt_squeeze p dim = Ok p' /\ wf_patch p' /\
    cm_dims (p_cm p') = filter (fun d => negb (mem d l)) (cm_dims (p_cm p)) /\
    (forall n, ((In n l \/ exists d, In d l /\ In d (dims_of (p_cm p) n)) ->
                assoc n (cm_coords (p_cm p')) = None /\ assoc n (cm_dmap (p_cm p')) = None) /\
               (~ (In n l \/ exists d, In d l /\ In d (dims_of (p_cm p) n)) ->
                assoc n (cm_coords (p_cm p')) = assoc n (cm_coords (p_cm p)) /\
                assoc n (cm_dmap (p_cm p')) = assoc n (cm_dmap (p_cm p)))) /\
    (forall pos, data_at p' pos = data_at p (fun d => if mem d l then 0 else pos d)) /\
    (l = [] -> p' = p).
Proof.
  intros W H1 H2 H3. destruct (pt_squeeze_ok p dim l W H1 H2 H3) as (p' & E & W' & D & C & M & G & I).
  exists p'. split; [exact E|]. split; [exact W'|]. split; [exact D|]. split; [|auto].
  intros n. rewrite (C n), (M n). split; intros J.
  - apply dropped_plain in J. rewrite J. auto.
  - destruct (droppedb (p_cm p) l n) eqn:Q; [|auto]. apply dropped_plain in Q. contradiction.
Qed.

Lemma pt_append_plain {A} (p : patch A) new : wf_patch p -> NoDup (map fst new) -> new <> [] ->
  (forall e, In e new -> newdim (p_cm p) e) ->
  exists p', pt_append_dims p new = Ok p' /\ wf_patch p' /\
    cm_dims (p_cm p') = cm_dims (p_cm p) ++ map fst new /\
    (forall n m, assoc n (cm_coords (p_cm p)) = Some m ->
       assoc n (cm_dmap (p_cm p')) = assoc n (cm_dmap (p_cm p)) /\
       exists m', assoc n (cm_coords (p_cm p')) = Some m' /\ carried m m' (full (m_shape m))) /\
    (forall n, ~ In n (map fst (cm_coords (p_cm p))) -> ~ In n (map fst new) -> assoc n (cm_coords (p_cm p')) = None) /\
    (forall n v, assoc n new = Some v ->
       assoc n (cm_dmap (p_cm p')) = Some [n] /\
       exists c, assoc n (cm_coords (p_cm p')) = Some (M1 c) /\
         match v with VLen k => c = CPart k | VArr _ vs => represents c vs | _ => False end) /\
    (forall pos, (forall n v, assoc n new = Some v -> 0 <= pos n < newlen v) -> data_at p' pos = data_at p pos).
Proof.
  intros W H1 H2 H3. destruct (pt_append_ok p new W H1 H2 H3) as (p' & E & W' & D & C & O & N & G).
  exists p'. split; [exact E|]. split; [exact W'|]. split; [exact D|]. split.
  - intros n m Q. destruct (C n) as [C1 C2]; [apply (in_map fst) in Q || (apply assoc_in in Q; apply (in_map fst) in Q; exact Q)|].
    split; [exact C2|]. exists (recf m). rewrite C1, Q. split; [reflexivity|].
    pose proof (wf_vals _ (wp_cm _ W) _ _ Q) as V. apply carried_recf; [apply wf_okm, V|apply carried_refl, V].
  - split; [exact O|]. split; [|exact G]. intros n v Q. destruct (N n v Q) as [N1 (c & N2 & N3)]. split; [exact N1|]. exists c. split; [exact N2|].
    destruct v; auto.
Qed.

Lemma pt_roll_plain {A} (p : patch A) dim k r (upd : bool) : wf_patch p -> plain_names (p_cm p) ->
  In dim (cm_dims (p_cm p)) -> assoc dim (cm_coords (p_cm p)) = Some (M1 (CRange r)) ->
  exists p' ps, pt_roll p dim k upd = Ok p' /\ wf_patch p' /\ cm_dims (p_cm p') = cm_dims (p_cm p) /\
    ps = map (fun i => (i - k) mod r_len r) (zrange (r_len r)) /\
    nd_picked (p_data p) (p_data p')
      (map (fun d => if String.eqb d dim then ps else pick0 (p_cm p) d) (cm_dims (p_cm p))) /\
    (if upd then
      (exists c', assoc dim (cm_coords (p_cm p')) = Some (M1 c') /\ carried1 (CRange r) c' ps) /\
      (forall n m, n <> dim -> assoc n (cm_coords (p_cm p)) = Some m ->
         exists m', assoc n (cm_coords (p_cm p')) = Some m' /\ carried m m' (full (m_shape m))) /\
      (forall n, n <> dim -> assoc n (cm_coords (p_cm p)) = None -> assoc n (cm_coords (p_cm p')) = None) /\
      (forall n, assoc n (cm_dmap (p_cm p')) = assoc n (cm_dmap (p_cm p)))
     else p_cm p' = p_cm p).
Proof.
  intros W P J E. destruct (pt_roll_ok p dim k r upd W P J E) as (p' & E' & W' & D & N & U).
  exists p', (roll_positions (r_len r) k). split; [exact E'|]. split; [exact W'|]. split; [exact D|]. split; [reflexivity|].
  split; [exact N|]. destruct upd; [|exact U]. destruct U as (U1 & U2 & U3). split; [exact U1|]. split; [|split; [|exact U3]].
  - intros n m Q M. exists (recf m). rewrite (U2 n Q), M. split; [reflexivity|].
    pose proof (wf_vals _ (wp_cm _ W) _ _ M) as V. apply carried_recf; [apply wf_okm, V|apply carried_refl, V].
  - intros n Q M. rewrite (U2 n Q), M. reflexivity.
Qed.

Lemma every_kth_multiples n k i : 0 <= n -> 0 < k ->
  (In i (map (fun i => i * k) (zrange ((n + k - 1) / k))) <-> 0 <= i < n /\ i mod k = 0).
Proof.
  intros Hn Hk. rewrite in_map_iff. split.
  - intros (j & <- & J). apply in_zrange in J. split.
    + split; [nia|]. assert (j + 1 <= (n + k - 1) / k) by lia. pose proof (Z.mul_div_le (n + k - 1) k Hk). nia.
    + apply Z.mod_mul. lia.
  - intros [Hi M]. exists (i / k). pose proof (Z.div_mod i k ltac:(lia)) as Q. split; [lia|]. apply in_zrange. split; [apply Z.div_pos; lia|].
    assert (i / k + 1 <= (n + k - 1) / k) by (apply Z.div_le_lower_bound; [lia|nia]). lia.
Qed.
