(** DASDAE files: what a sequence of saves leaves in the file. *)
From Verif Require Import Base BaseFacts CoordModel NdModel NdSpec FrameModel FrameProofs5 ChunkModel CmModel CmSpec CmProofs CmProofs5
  AttrsModel AttrsSpec AttrsProofs AttrsProofs2 AttrsProofs8 HistoryProofs4 DasdaeModel DasdaeSpec DasdaeProofs.
From Coq Require Import Strings.String Strings.Ascii Permutation Sorted.
Local Open Scope Z_scope.
Local Open Scope list_scope.

Section Save.
Context {A : Type}.
Implicit Types g h : group A.
Implicit Types f : file A.

(** ** Groups with the same content *)
Record geq g h : Prop :=
  { ge_na : NoDup (map fst (g_attrs g)); ge_nb : NoDup (map fst (g_attrs h));
    ge_nc : NoDup (map fst (g_arrays g)); ge_nd : NoDup (map fst (g_arrays h));
    ge_attrs : forall k, assoc k (g_attrs g) = assoc k (g_attrs h);
    ge_arrays : forall k, assoc k (g_arrays g) = assoc k (g_arrays h);
    ge_data : g_data g = g_data h }.

Lemma fold_left_ext {X Y} (F G : X -> Y -> X) l : (forall x y, F x y = G x y) -> forall a, fold_left F l a = fold_left G l a.
Proof. intros E. induction l as [|y l IH]; intros a; cbn; [reflexivity|]. now rewrite E. Qed.
Lemma map_result_ext {X Y} (F G : X -> result Y) l : (forall x, F x = G x) -> map_result F l = map_result G l.
Proof. intros E. induction l as [|x l IH]; cbn; [reflexivity|]. now rewrite E, IH. Qed.
Lemma read_patch_ext g h : geq g h -> read_patch g = read_patch h.
Proof.
  intros [Na Nb Nc Nd Ea Er Ed].
  assert (D : get_attr_dict g = get_attr_dict h).
  { unfold get_attr_dict. rewrite (keys_with_ext _ _ _ Na Nb Ea). apply fold_left_ext. intros x y. now rewrite Ea. }
  assert (S : forall a, load_coords g a = load_coords h a).
  { intros a. unfold load_coords. rewrite (keys_with_ext _ _ _ Nc Nd Er). rewrite (map_result_ext (load_coord g a) (load_coord h a)); [reflexivity|].
    intros x. unfold load_coord. now rewrite Er. }
  assert (C : forall ds a, get_coords g ds a = get_coords h ds a).
  { intros ds a. unfold get_coords. rewrite S. destruct (load_coords h a) as [cs|]; cbn [bind]; [|reflexivity].
    rewrite (keys_with_ext _ _ _ Na Nb Ea). rewrite (map_result_ext (load_dims g cs) (load_dims h cs)); [reflexivity|].
    intros x. unfold load_dims. now rewrite Ea. }
  unfold read_patch, get_attrs, get_dims. rewrite D, Ea, Ed. destruct (get_attr_dict h) as [d|]; cbn [bind]; [|reflexivity].
  destruct (mk_attrs d) as [a|]; cbn [bind]; [|reflexivity].
  destruct (match assoc "_dims" (g_attrs h) with Some (SVal (AStr s)) => if String.eqb s EmptyString then Ok [] else Ok (str_split "," s) | _ => Err KeyError end) as [ds|]; cbn [bind]; [|reflexivity].
  now rewrite C.
Qed.

(** ** The group of one patch *)
Implicit Types p q : dpatch A.
Definition own p n : list string := match assoc n (cm_dmap (dp_cm p)) with Some ds => ds | None => [] end.
Definition cdims p : list (string * sattr) :=
  map (fun e => ("_cdims_" ++ fst e, SVal (AStr (str_join "," (own p (fst e)))))%string) (cm_coords (dp_cm p)).
Definition entries p : list (string * sattr) := attr_entries p ++ cdims p.
Definition fresh p : group A := mkG (entries p) (coord_arrays p) (Some (p_data (dp_patch p))).

Lemma entries_keys p : map fst (entries p) =
  map (append "_attrs_") (map fst (a_vals (dp_attrs p)) ++ ["dims"; "coords"]%string) ++ ["_dims"%string]
  ++ map (append "_cdims_") (map fst (cm_coords (dp_cm p))).
Proof.
  unfold entries, attr_entries, cdims, dump_set. cbn [d_vals d_coords]. rewrite !map_app, !map_map. cbn [map fst app].
  rewrite <- !app_assoc. cbn [app]. reflexivity.
Qed.
Lemma arrays_keys p : map fst (coord_arrays p) = map (append "_coord_") (map fst (cm_coords (dp_cm p))).
Proof. unfold coord_arrays. rewrite !map_map. reflexivity. Qed.
Lemma nodup_map_prefix c l : NoDup l -> NoDup (map (append c) l).
Proof. apply FinFun.Injective_map_NoDup. intros a b. apply prefix_inj. Qed.
Lemma entries_nodup p : storable p -> NoDup (map fst (entries p)).
Proof.
  intros S. assert (T : tidy (dp_attrs p)) by (apply (st_family _ S); now left). rewrite entries_keys.
  assert (N1 : NoDup (map fst (a_vals (dp_attrs p)) ++ ["dims"; "coords"]%string)).
  { destruct (t_own _ T) as (O1 & O2). apply NoDup_app'; [apply (t_keys _ T)|repeat constructor; cbn; intuition discriminate|].
    intros x H1 [<-|[<-|[]]]; contradiction. }
  apply NoDup_app'; [now apply nodup_map_prefix| |].
  - constructor; [|apply nodup_map_prefix, (wf_ckeys _ (wp_cm _ (st_patch _ S)))].
    intros H. apply in_map_iff in H. destruct H as (x & E & _). discriminate.
  - intros x H1 H2. apply in_map_iff in H1. destruct H1 as (y & <- & _). cbn [app] in H2. destruct H2 as [E|H2]; [discriminate|].
    apply in_map_iff in H2. destruct H2 as (z & E & _). discriminate.
Qed.
Lemma arrays_nodup p : storable p -> NoDup (map fst (coord_arrays p)).
Proof. intros S. rewrite arrays_keys. apply nodup_map_prefix, (wf_ckeys _ (wp_cm _ (st_patch _ S))). Qed.
Lemma coord_dims_ok p : storable p -> coord_dims p = Ok (cdims p).
Proof.
  intros S. unfold coord_dims, cdims. pose proof (wf_keys _ (wp_cm _ (st_patch _ S))) as K.
  assert (G : forall l, incl l (cm_coords (dp_cm p)) ->
    map_result (fun e => match assoc (fst e) (cm_dmap (dp_cm p)) with
                         | Some ds => Ok ("_cdims_" ++ fst e, SVal (AStr (str_join "," ds)))%string | None => Err KeyError end) l
    = Ok (map (fun e : string * mcoord => ("_cdims_" ++ fst e, SVal (AStr (str_join "," (own p (fst e)))))%string) l)).
  { induction l as [|(n & m) l IH]; intros I; [reflexivity|]. cbn [map_result map fst].
    assert (D : In n (map fst (cm_dmap (dp_cm p)))) by (apply K; apply in_map_iff; exists (n, m); split; [reflexivity|apply I; now left]).
    apply assoc_In in D. destruct D as (ds & D). unfold own at 1. rewrite D. cbn [bind]. rewrite IH; [reflexivity|].
    intros x X. apply I. now right. }
  now apply G.
Qed.
Lemma good_node n : node_name n -> bad_name n = false.
Proof.
  intros (N1 & N2 & N3). unfold bad_name. destruct (String.eqb_spec n EmptyString); [contradiction|]. destruct (String.eqb_spec n "."); [contradiction|].
  destruct (str_contains "/" n) eqn:E; [|reflexivity]. apply str_contains_spec in E. contradiction.
Qed.
Lemma array_node n : ~ contains "/" n -> node_name ("_coord_" ++ n).
Proof.
  intros H. split; [discriminate|]. split; [discriminate|]. intros (a & b & E). apply H.
  assert (G : forall w x y z : string, (w ++ x = y ++ "/" ++ z)%string -> ~ contains "/" w -> exists r, x = (r ++ "/" ++ z)%string).
  { induction w as [|c w IH]; intros x y z Q N; [exists y; exact Q|]. destruct y as [|d y]; cbn in Q; injection Q as -> Q.
    - exfalso. apply N. exists EmptyString, w. reflexivity.
    - apply (IH x y z Q). intros (u & v & ->). apply N. exists (String d u), v. reflexivity. }
  destruct (G "_coord_"%string n a b E) as (r & ->).
  - intros C. apply str_contains_spec in C. discriminate.
  - exists r, b. reflexivity.
Qed.
Lemma wf_data_shape p : storable p -> nd_shape (p_data (dp_patch p)) <> [].
Proof.
  intros S. destruct (st_patch _ S) as [_ _ N F]. intros E. rewrite E in F. inversion F as [Hx Hy|]. apply N. unfold dp_cm in *. auto.
Qed.
Definition old_group f n : group A := match assoc n f with Some g => g | None => mkG [] [] None end.
Lemma save_ok p n f : storable p -> node_name n ->
  save_patch p n f = Ok (assoc_set n (mkG (put_all (entries p) (g_attrs (old_group f n)))
                                          (put_all (coord_arrays p) (g_arrays (old_group f n)))
                                          (Some (p_data (dp_patch p)))) f).
Proof.
  intros S N. unfold save_patch. rewrite (good_node n N), (coord_dims_ok p S). cbn [bind].
  assert (B : existsb (fun e => bad_name (fst e)) (coord_arrays p) = false).
  { destruct (existsb _ _) eqn:E; [|reflexivity]. apply existsb_exists in E. destruct E as ((k & s) & I & E). cbn [fst] in E.
    assert (K : In k (map fst (coord_arrays p))) by (apply in_map_iff; exists (k, s); auto). rewrite arrays_keys in K. apply in_map_iff in K.
    destruct K as (m & <- & M). destruct (st_names _ S m M) as (_ & _ & Sl). rewrite (good_node _ (array_node m Sl)) in E. discriminate. }
  rewrite B. pose proof (wf_data_shape p S) as Sh. destruct (nd_shape (p_data (dp_patch p))); [contradiction|]. reflexivity.
Qed.

(** ** Sequences *)
Lemma save_all_app l l' f : save_all (l ++ l') f = (do f' <- save_all l f; save_all l' f').
Proof.
  revert f. induction l as [|(n & p) l IH]; intros f; [reflexivity|]. cbn [app save_all]. destruct (save_patch p n f); cbn [bind]; [apply IH|reflexivity].
Qed.

Record holds (l : list (string * dpatch A)) f : Prop :=
  { ho_nodup : NoDup (map fst f);
    ho_names : forall n, In n (map fst f) <-> In n (map fst l);
    ho_group : forall n g, assoc n f = Some g -> exists p, saved_last l n p /\ g_data g = Some (p_data (dp_patch p)) /\
      NoDup (map fst (g_attrs g)) /\ NoDup (map fst (g_arrays g)) /\
      (forall k v, assoc k (entries p) = Some v -> assoc k (g_attrs g) = Some v) /\
      (forall k v, assoc k (coord_arrays p) = Some v -> assoc k (g_arrays g) = Some v) /\
      (forall k, In k (map fst (g_attrs g)) -> exists q, In (n, q) l /\ In k (map fst (entries q))) /\
      (forall k, In k (map fst (g_arrays g)) -> exists q, In (n, q) l /\ In k (map fst (coord_arrays q))) }.

Lemma save_all_holds l : (forall n p, In (n, p) l -> storable p /\ node_name n) -> exists f, save_all l [] = Ok f /\ holds l f.
Proof.
  induction l as [|(n & p) l IH] using rev_ind; intros H.
  - exists []. split; [reflexivity|]. constructor; [constructor|tauto|]. discriminate.
  - destruct IH as (f & E & Hf); [intros m q I; apply H; apply in_app_iff; now left|].
    destruct (H n p) as (S & N); [apply in_app_iff; right; now left|].
    rewrite save_all_app, E. cbn [bind save_all]. rewrite (save_ok p n f S N). cbn [bind].
    eexists. split; [reflexivity|]. constructor.
    + apply NoDup_assoc_set, (ho_nodup _ _ Hf).
    + intros m. rewrite In_assoc_set, (ho_names _ _ Hf), map_app, in_app_iff. cbn. intuition congruence.
    + intros m g Em. destruct (string_dec m n) as [->|Nm].
      * rewrite assoc_set_same in Em. injection Em as <-. exists p. cbn [g_attrs g_arrays g_data].
        assert (No : NoDup (map fst (g_attrs (old_group f n))) /\ NoDup (map fst (g_arrays (old_group f n))) /\
          (forall k, In k (map fst (g_attrs (old_group f n))) -> exists q, In (n, q) l /\ In k (map fst (entries q))) /\
          (forall k, In k (map fst (g_arrays (old_group f n))) -> exists q, In (n, q) l /\ In k (map fst (coord_arrays q)))).
        { unfold old_group. destruct (assoc n f) as [g|] eqn:Eg; [|repeat split; try constructor; intros k []].
          destruct (ho_group _ _ Hf n g Eg) as (q & _ & _ & N1 & N2 & _ & _ & K1 & K2). auto. }
        destruct No as (No1 & No2 & K1 & K2).
        split; [exists l, []; split; [reflexivity|intros []]|]. split; [reflexivity|].
        split; [now apply put_nodup|]. split; [now apply put_nodup|].
        split; [intros k v V; rewrite put_assoc by (now apply entries_nodup); now rewrite V|].
        split; [intros k v V; rewrite put_assoc by (now apply arrays_nodup); now rewrite V|].
        split; intros k K; apply put_keys in K as [K|K].
        -- exists p. split; [apply in_app_iff; right; now left|exact K].
        -- destruct (K1 k K) as (q & I & Q). exists q. split; [apply in_app_iff; now left|exact Q].
        -- exists p. split; [apply in_app_iff; right; now left|exact K].
        -- destruct (K2 k K) as (q & I & Q). exists q. split; [apply in_app_iff; now left|exact Q].
      * rewrite assoc_set_other in Em by exact Nm. destruct (ho_group _ _ Hf m g Em) as (q & (l1 & l2 & -> & Nl) & D & N1 & N2 & V1 & V2 & K1 & K2).
        exists q. split; [exists l1, (l2 ++ [(n, p)]); split; [now rewrite <- app_assoc|]|].
        { rewrite map_app, in_app_iff. cbn. intuition congruence. }
        do 5 (split; [assumption|]).
        split; intros k K; [destruct (K1 k K) as (r & I & Q)|destruct (K2 k K) as (r & I & Q)]; exists r; (split; [apply in_app_iff; now left|exact Q]).
Qed.

Lemma covers_entries p q : covers p q -> incl (map fst (entries q)) (map fst (entries p)) /\ incl (map fst (coord_arrays q)) (map fst (coord_arrays p)).
Proof.
  intros (C1 & C2). rewrite !entries_keys, !arrays_keys. split.
  - apply incl_app; [apply incl_appl|apply incl_appr, incl_app; [apply incl_appl, incl_refl|apply incl_appr]].
    + apply incl_map. apply incl_app; [now apply incl_appl|apply incl_appr, incl_refl].
    + now apply incl_map.
  - now apply incl_map.
Qed.
Lemma holds_fresh l f n g : (forall n p, In (n, p) l -> storable p /\ node_name n) -> replaced l -> holds l f -> assoc n f = Some g ->
  exists p, saved_last l n p /\ storable p /\ geq g (fresh p).
Proof.
  intros H R Hf E. destruct (ho_group _ _ Hf n g E) as (p & L & D & N1 & N2 & V1 & V2 & K1 & K2). exists p. split; [exact L|].
  assert (S : storable p). { destruct L as (l1 & l2 & -> & _). apply (H n p). apply in_app_iff. right. now left. }
  split; [exact S|]. constructor; cbn [fresh g_attrs g_arrays g_data]; try assumption.
  - now apply entries_nodup.
  - now apply arrays_nodup.
  - intros k. destruct (assoc k (entries p)) as [v|] eqn:Ek; [now apply V1|]. destruct (assoc k (g_attrs g)) as [v|] eqn:Eg; [|reflexivity]. exfalso.
    destruct (K1 k) as (q & I & Q); [apply assoc_In; eauto|]. apply assoc_None in Ek. apply Ek. now apply (covers_entries p q (R n p q L I)).
  - intros k. destruct (assoc k (coord_arrays p)) as [v|] eqn:Ek; [now apply V2|]. destruct (assoc k (g_arrays g)) as [v|] eqn:Eg; [|reflexivity]. exfalso.
    destruct (K2 k) as (q & I & Q); [apply assoc_In; eauto|]. apply assoc_None in Ek. apply Ek. now apply (covers_entries p q (R n p q L I)).
Qed.
End Save.
