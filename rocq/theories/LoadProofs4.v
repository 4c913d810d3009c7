(** Scanning a DASDAE file. *)
From Verif Require Import Base BaseFacts CoordModel NdModel FrameModel FrameProofs5 ChunkModel CmModel CmSpec CmProofs CmProofs5
  AttrsModel AttrsSpec AttrsProofs AttrsProofs2 AttrsProofs8 HistoryProofs4 HistoryProofs6 DasdaeModel DasdaeSpec DasdaeProofs DasdaeProofs2 DasdaeProofs3 DasdaeProofs5
  LoadModel LoadSpec LoadProofs.
From Coq Require Import Strings.String Strings.Ascii Permutation.
Local Open Scope Z_scope.
Local Open Scope list_scope.

Definition strip (k : string) : string := str_replace "_attrs_" EmptyString k.
Lemma strip_attr k : ~ contains "_attrs_" k -> strip ("_attrs_" ++ k) = k.
Proof. apply strip_prefix. discriminate. Qed.
Lemma strip_same k : ~ contains "_attrs_" k -> strip k = k.
Proof. intros N. unfold strip. now apply FrameProofs.replace_none. Qed.

Lemma NoDup_del {X} k (l : list (string * X)) : NoDup (map fst l) -> NoDup (map fst (del k l)).
Proof. apply NoDup_map_filter. Qed.
Lemma In_del {X} k (l : list (string * X)) x : NoDup (map fst l) -> In x (map fst (del k l)) <-> x <> k /\ In x (map fst l).
Proof.
  intros ND. rewrite <- !assoc_In, assoc_del. destruct (String.eqb_spec x k) as [->|N].
  - split; [intros (v & E); discriminate|tauto].
  - tauto.
Qed.

Section Scan.
Context {A : Type}.
Implicit Types g : group A.
Implicit Types p q : dpatch A.

Lemma fold_scan g (look : string -> scal) c K : forall d, NoDup (map fst (d_vals d)) ->
  (forall x, In x K -> x <> "_attrs_coords"%string -> assoc x (g_attrs g) = Some (SVal (look (strip x))) /\ strip x <> "coords"%string) ->
  (In "_attrs_coords"%string K -> assoc "_attrs_coords"%string (g_attrs g) = Some (SCoords c)) ->
  exists d', fold_left (fun acc key => do d <- acc; match assoc key (g_attrs g) with
               | Some v => add_attr d (str_replace "_attrs_" EmptyString key) v | None => Err KeyError end) K (Ok d) = Ok d' /\
    NoDup (map fst (d_vals d')) /\
    (forall k, In k (map fst (d_vals d')) <-> In k (map fst (d_vals d)) \/ exists x, In x K /\ x <> "_attrs_coords"%string /\ strip x = k) /\
    (forall x, In x K -> x <> "_attrs_coords"%string -> assoc (strip x) (d_vals d') = Some (look (strip x))) /\
    (forall k, (forall x, In x K -> x <> "_attrs_coords"%string -> strip x <> k) -> assoc k (d_vals d') = assoc k (d_vals d)) /\
    d_coords d' = if mem "_attrs_coords" K then Some (CDict c) else d_coords d.
Proof.
  induction K as [|y K IH]; intros d ND V X; cbn [fold_left bind].
  - exists d. split; [reflexivity|]. split; [exact ND|]. split; [intros k; split; [auto|intros [H|(x & [] & _)]; exact H]|]. split; [intros x []|]. split; [reflexivity|reflexivity].
  - assert (V' : forall x, In x K -> x <> "_attrs_coords"%string -> assoc x (g_attrs g) = Some (SVal (look (strip x))) /\ strip x <> "coords"%string) by (intros; apply V; [now right|assumption]).
    assert (X' : In "_attrs_coords"%string K -> assoc "_attrs_coords"%string (g_attrs g) = Some (SCoords c)) by (intros; apply X; now right).
    fold (strip y). destruct (string_dec y "_attrs_coords") as [->|N].
    + rewrite X by now left. change (strip "_attrs_coords") with "coords"%string. cbn [add_attr String.eqb Ascii.eqb Bool.eqb].
      destruct (IH (mkDict (d_vals d) (Some (CDict c))) ND V' X') as (d' & E & N' & Ks & As & Ot & Co). exists d'. split; [exact E|]. split; [exact N'|]. cbn [d_vals d_coords] in *. split; [|split; [|split]].
      * intros k. rewrite Ks. split; [intros [H|(x & I & Nx & S)]; [auto|right; exists x; split; [now right|auto]]|intros [H|(x & [I|I] & Nx & S)]; [auto|congruence|eauto]].
      * intros x [<-|I] Nx; [congruence|now apply As].
      * intros k H. apply Ot. intros x I. apply H. now right.
      * rewrite Co. unfold mem. cbn [existsb]. rewrite String.eqb_refl. cbn [orb]. now destruct (existsb (String.eqb "_attrs_coords") K).
    + destruct (V y (or_introl eq_refl) N) as (Ey & Ny). rewrite Ey. cbn [add_attr]. destruct (String.eqb_spec (strip y) "coords"); [contradiction|].
      destruct (IH (mkDict (assoc_set (strip y) (look (strip y)) (d_vals d)) (d_coords d)) (NoDup_assoc_set _ _ _ ND) V' X') as (d' & E & N' & Ks & As & Ot & Co).
      exists d'. split; [exact E|]. split; [exact N'|]. cbn [d_vals d_coords] in *. split; [|split; [|split]].
      * intros k. rewrite Ks, In_assoc_set. split.
        -- intros [[->|H]|(x & I & Nx & S)]; [right; exists y; split; [now left|auto]|auto|right; exists x; split; [now right|auto]].
        -- intros [H|(x & [<-|I] & Nx & S)]; [auto|auto|right; eauto].
      * intros x I Nx. destruct (in_dec string_dec (strip x) (map strip (filter (fun z => negb (String.eqb z "_attrs_coords")) K))) as [J|J].
        -- apply in_map_iff in J. destruct J as (z & Ez & J). apply filter_In in J as (J & Nz). rewrite <- Ez. apply As; [exact J|].
           apply negb_true_iff in Nz. now apply String.eqb_neq.
        -- rewrite Ot.
           ++ rewrite assoc_assoc_set. destruct I as [->|I]; [now rewrite String.eqb_refl|]. elim J. apply in_map_iff. exists x. split; [reflexivity|].
              apply filter_In. split; [exact I|]. apply negb_true_iff. now apply String.eqb_neq.
           ++ intros z I' Nz Ez. apply J. apply in_map_iff. exists z. split; [exact Ez|]. apply filter_In. split; [exact I'|]. apply negb_true_iff. now apply String.eqb_neq.
      * intros k H. rewrite Ot by (intros x I; apply H; now right). rewrite assoc_assoc_set. destruct (String.eqb_spec k (strip y)) as [->|]; [|reflexivity].
        exfalso. apply (H y); auto. now left.
      * rewrite Co. unfold mem. cbn [existsb]. destruct (String.eqb_spec "_attrs_coords" y); [congruence|]. reflexivity.
Qed.

Lemma scan_group_ext path v g h : geq g h -> scan_group path v g = scan_group path v h.
Proof.
  intros [Na Nb Nc Nd Ea Er Ed]. unfold scan_group, scan_dict.
  assert (K : sort_strs (map fst (g_attrs g)) = sort_strs (map fst (g_attrs h))) by (apply sort_strs_eq; now apply assoc_ext_perm).
  rewrite K. rewrite (fold_left_ext _ (fun acc key => do d <- acc; match assoc key (g_attrs h) with
               | Some v => add_attr d (str_replace "_attrs_" EmptyString key) v | None => Err KeyError end)); [reflexivity|]. intros x y. now rewrite Ea.
Qed.

(** The value scanned under a name. *)
Definition scanned_val p k : scal :=
  if String.eqb k "_dims" then AStr (str_join "," (cm_dims (dp_cm p)))
  else if str_prefix "_cdims_" k && mem (str_drop 7 k) (map fst (cm_coords (dp_cm p))) then AStr (str_join "," (own p (str_drop 7 k)))
  else stored_val p k.

Lemma scanned_attr p k : scannable p -> In k (map fst (a_vals (dp_attrs p))) -> scanned_val p k = stored_val p k.
Proof.
  intros S I. destruct (sc_keys _ S k I) as (N1 & N2). unfold scanned_val. destruct (String.eqb_spec k "_dims"); [contradiction|].
  destruct (str_prefix "_cdims_" k && mem (str_drop 7 k) (map fst (cm_coords (dp_cm p)))) eqn:E; [|reflexivity]. exfalso.
  apply andb_true_iff in E as (E1 & E2). apply str_prefix_starts in E1. destruct E1 as (r & ->). change 7%nat with (String.length "_cdims_") in E2. rewrite str_drop_app in E2.
  apply mem_In' in E2. now apply (N2 r).
Qed.
Lemma scanned_cdims p n : In n (map fst (cm_coords (dp_cm p))) -> scanned_val p ("_cdims_" ++ n) = AStr (str_join "," (own p n)).
Proof.
  intros I. unfold scanned_val. change (String.eqb ("_cdims_" ++ n) "_dims") with false.
  assert (P : str_prefix "_cdims_" ("_cdims_" ++ n) = true) by (apply str_prefix_starts; exists n; reflexivity). rewrite P.
  change 7%nat with (String.length "_cdims_"). rewrite str_drop_app. assert (M : mem n (map fst (cm_coords (dp_cm p))) = true) by now apply mem_In'. now rewrite M.
Qed.

(** The attribute set scanned, with its keys. *)
Lemma scan_fresh p path version : storable p -> scannable p -> exists s, scan_group path version (fresh p) = Ok s /\
  a_dims s = a_dims (dp_attrs p) /\ a_coords s = a_coords (dp_attrs p) /\ NoDup (map fst (a_vals s)) /\
  (forall k, In k (map fst (a_vals s)) <-> In k (map fst (a_vals (dp_attrs p))) \/ In k ["path"; "file_format"; "file_version"]%string \/
     exists n, In n (map fst (cm_coords (dp_cm p))) /\ k = ("_cdims_" ++ n)%string) /\
  (forall k, In k (map fst (a_vals s)) -> assoc k (a_vals s) =
     Some (if String.eqb k "path" then AStr path else if String.eqb k "file_format" then AStr "DASDAE" else if String.eqb k "file_version" then AStr version
           else scanned_val p k)).
Proof.
  intros S Sc. assert (T : tidy (dp_attrs p)) by (apply (st_family _ S); now left).
  assert (Kc : forall k, In k (map fst (a_vals (dp_attrs p))) -> ~ contains "_attrs_" k) by apply (st_keys _ S).
  assert (Cc : forall n, In n (map fst (cm_coords (dp_cm p))) -> strip ("_cdims_" ++ n) = ("_cdims_" ++ n)%string).
  { intros n I. apply strip_same, (sc_cdims _ Sc n I). }
  assert (Kk : forall x, In x (sort_strs (map fst (entries p))) <-> (exists k, x = ("_attrs_" ++ k)%string /\ In k (attr_names p)) \/ x = "_dims"%string \/
     exists n, In n (map fst (cm_coords (dp_cm p))) /\ x = ("_cdims_" ++ n)%string).
  { intros x. assert (Pm := sort_strs_perm (map fst (entries p))).
    assert (I : In x (sort_strs (map fst (entries p))) <-> In x (map fst (entries p))) by (split; apply Permutation_in; [|symmetry]; exact Pm || (symmetry; exact Pm)).
    rewrite I, entries_keys, !in_app_iff, !in_map_iff. cbn [In]. split.
    - intros [(k & <- & K)|[[<-|[]]|(n & <- & K)]]; [left; eauto|auto|right; right; exists n; auto].
    - intros [(k & -> & K)|[->|(n & K & ->)]]; [left; eauto|auto|right; right; exists n; auto]. }
  assert (Clean : forall k, In k (attr_names p) -> strip ("_attrs_" ++ k) = k) by (intros k I; apply strip_attr, (attr_names_clean p S k I)).
  assert (Nc : forall k, ("_attrs_" ++ k)%string = "_attrs_coords"%string -> k = "coords"%string) by (intros k E; injection E as E; exact E).
  assert (Old : forall k, In k (map fst (a_vals (dp_attrs p))) -> In k (attr_names p)) by (intros k I; apply in_app_iff; now left).
  destruct (fold_scan (fresh p) (scanned_val p) (full_coords (dp_attrs p)) (sort_strs (map fst (entries p))) (mkDict [] None)) as (d & Ed & ND & Ks & As & _ & Co).
  { constructor. }
  { intros x I Nx. apply Kk in I as [(k & -> & I)|[->|(n & I & ->)]].
    - rewrite Clean by exact I. assert (Nk : k <> "coords"%string) by (intros ->; now apply Nx). split; [|exact Nk]. cbn [fresh g_attrs]. rewrite entry_val by assumption. f_equal. f_equal.
      unfold attr_names in I. apply in_app_iff in I as [I|[<-|[I|[]]]]; [symmetry; now apply scanned_attr|reflexivity|congruence].
    - split; [|discriminate]. cbn [fresh g_attrs]. apply in_assoc; [now apply entries_nodup|]. unfold entries, attr_entries. apply in_app_iff. left.
      apply in_app_iff. right. apply in_app_iff. right. now left.
    - rewrite Cc by exact I. split; [|discriminate]. rewrite scanned_cdims by exact I. cbn [fresh g_attrs]. apply in_assoc; [now apply entries_nodup|].
      unfold entries, cdims. apply in_app_iff. right. apply in_map_iff in I. destruct I as ((m & c) & <- & I). apply in_map_iff. exists (m, c). split; [reflexivity|exact I]. }
  { intros _. now apply entry_coords. }
  assert (Mc : mem "_attrs_coords" (sort_strs (map fst (entries p))) = true).
  { apply mem_In', Kk. left. exists "coords"%string. split; [reflexivity|]. apply in_app_iff. right. right. now left. }
  rewrite Mc in Co. cbn [d_vals map In] in Ks.
  assert (K1 : forall k, In k (map fst (d_vals d)) <-> In k (map fst (a_vals (dp_attrs p))) \/ k = "dims"%string \/ k = "_dims"%string \/
     exists n, In n (map fst (cm_coords (dp_cm p))) /\ k = ("_cdims_" ++ n)%string).
  { intros k. rewrite Ks. split.
    - intros [[]|(x & I & Nx & <-)]. apply Kk in I as [(j & -> & I)|[->|(n & I & ->)]].
      + rewrite Clean by exact I. unfold attr_names in I. apply in_app_iff in I as [I|[<-|[<-|[]]]]; [auto|auto|]. now elim Nx.
      + auto.
      + rewrite Cc by exact I. right. right. right. eauto.
    - intros H. right. destruct H as [I|[->|[->|(n & I & ->)]]].
      + exists ("_attrs_" ++ k)%string. split; [apply Kk; left; eauto|]. split; [|apply Clean; auto]. intros E. apply Nc in E. subst k. now apply (proj2 (t_own _ T)).
      + exists "_attrs_dims"%string. split; [apply Kk; left; exists "dims"%string; split; [reflexivity|apply in_app_iff; right; now left]|]. split; [discriminate|reflexivity].
      + exists "_dims"%string. split; [apply Kk; auto|]. split; [discriminate|reflexivity].
      + exists ("_cdims_" ++ n)%string. split; [apply Kk; right; right; eauto|]. split; [discriminate|now apply Cc]. }
  assert (V1 : forall k, In k (map fst (d_vals d)) -> assoc k (d_vals d) = Some (scanned_val p k)).
  { intros k I. apply Ks in I as [[]|(x & I & Nx & <-)]. now apply As. }
  unfold scan_group, scan_dict. cbn [fresh g_attrs]. cbn [fresh g_attrs] in Ed. rewrite Ed. cbn [bind].
  rewrite (V1 "_dims"%string) by (apply K1; auto). cbn [bind d_vals d_coords]. change (scanned_val p "_dims") with (AStr (str_join "," (cm_dims (dp_cm p)))).
  destruct (dim_tuple_ne _ (st_some _ S)) as (Dt & Dne). assert (Dj : str_join "," (cm_dims (dp_cm p)) = a_dims (dp_attrs p)) by (rewrite <- (st_dims _ S), Dt; apply join_split). rewrite Dj.
  set (vals := assoc_set "path"%string _ _).
  assert (Nv : NoDup (map fst vals)) by (unfold vals; do 4 apply NoDup_assoc_set; now apply NoDup_del).
  assert (Iv : forall k, In k (map fst vals) <-> k = "dims"%string \/ In k (map fst (a_vals (dp_attrs p))) \/ In k ["path"; "file_format"; "file_version"]%string \/
     exists n, In n (map fst (cm_coords (dp_cm p))) /\ k = ("_cdims_" ++ n)%string).
  { intros k. unfold vals. rewrite !In_assoc_set, In_del by exact ND. rewrite K1. cbn [In]. split.
    - intros [->|[->|[->|[->|(N & [H|[->|[->|H]]])]]]]; auto 8.
    - intros [->|[H|[[<-|[<-|[<-|[]]]]|(n & I & ->)]]]; auto 6.
      + do 4 right. split; [|auto]. intros ->. destruct (sc_keys _ Sc _ H). congruence.
      + do 4 right. split; [discriminate|]. do 3 right. eauto. }
  assert (Av : forall k, In k (map fst vals) -> k <> "dims"%string -> assoc k vals =
     Some (if String.eqb k "path" then AStr path else if String.eqb k "file_format" then AStr "DASDAE" else if String.eqb k "file_version" then AStr version else scanned_val p k)).
  { intros k I Nd. apply Iv in I. unfold vals. rewrite !assoc_assoc_set. destruct (String.eqb_spec k "path"); [reflexivity|]. destruct (String.eqb_spec k "file_format"); [reflexivity|].
    destruct (String.eqb_spec k "file_version"); [reflexivity|]. destruct (String.eqb_spec k "dims"); [contradiction|]. rewrite assoc_del.
    assert (I' : k <> "_dims"%string /\ In k (map fst (d_vals d))).
    { destruct I as [->|[H|[[<-|[<-|[<-|[]]]]|(m & I & ->)]]]; try congruence.
      - split; [apply (sc_keys _ Sc _ H)|apply K1; auto].
      - split; [discriminate|]. apply K1. do 3 right. eauto. }
    destruct I' as (N' & I'). destruct (String.eqb_spec k "_dims"); [contradiction|]. now apply V1. }
  assert (Ad : assoc "dims"%string vals = Some (AStr (a_dims (dp_attrs p)))) by (unfold vals; rewrite !assoc_assoc_set; reflexivity).
  destruct (full_coords_good _ T) as (C1 & C2 & C3). rewrite Co.
  assert (G : good (names_of (dp_attrs p)) (mkDict vals (Some (CDict (full_coords (dp_attrs p)))))).
  { apply set_good; [exact T|exact Nv| | | |exact C1|apply map_fst_map].
    - intros k K N. apply Iv in K as [K|[K|[K|(n & K & ->)]]]; [contradiction| | |].
      + apply (proj2 (st_family _ S) (dp_attrs p) (dp_attrs p)); [now left|now left|exact K].
      + now apply (sc_where _ Sc).
      + now apply (sc_cdims _ Sc).
    - intros K. apply Iv in K as [K|[K|[[K|[K|[K|[]]]]|(n & _ & K)]]]; try discriminate. now apply (proj2 (t_own _ T)).
    - exists (AStr (a_dims (dp_attrs p))), (dim_tuple (dp_attrs p)). split; [exact Ad|]. split; [split; [apply (st_some _ S)|exact Dt]|apply dims_in_names]. }
  rewrite (mk_attrs_plain _ (good_plain _ _ (fair_of _ T) G) (a_coords (dp_attrs p))).
  2:{ unfold coords_of. cbn [d_coords coval_dict]. unfold full_coords. apply map_result_self. intros (n & s) I. apply mk_summ_dict. apply (t_summ _ T n s I). }
  cbn [d_vals]. rewrite Ad. eexists. split; [reflexivity|]. cbn [a_dims a_coords a_vals]. split; [reflexivity|]. split; [reflexivity|]. split; [now apply NoDup_del|].
  assert (Dd : ~ In "dims"%string (map fst (a_vals (dp_attrs p))) ) by apply (t_own _ T).
  split.
  - intros k. rewrite In_del by exact Nv. rewrite Iv. split.
    + intros (N & [H|H]); [contradiction|exact H].
    + intros H. split; [|now right]. intros ->. destruct H as [H|[[H|[H|[H|[]]]]|(n & _ & H)]]; try discriminate. contradiction.
  - intros k I. apply In_del in I as (N & I); [|exact Nv]. rewrite assoc_del. destruct (String.eqb_spec k "dims"); [contradiction|]. now apply Av.
Qed.

Lemma scan_describes p path version : storable p -> scannable p -> exists s, scan_group path version (fresh p) = Ok s /\ describes p path version s.
Proof.
  intros S Sc. assert (T : tidy (dp_attrs p)) by (apply (st_family _ S); now left).
  destruct (scan_fresh p path version S Sc) as (s & E & D & C & ND & Ks & Vs). exists s. split; [exact E|].
  assert (Val : forall k, In k (map fst (a_vals s)) -> value_of s k = Some (if String.eqb k "path" then AStr path else if String.eqb k "file_format" then AStr "DASDAE"
     else if String.eqb k "file_version" then AStr version else scanned_val p k)) by (intros k I; rewrite value_assoc, (Vs k I); reflexivity).
  constructor; [exact D|exact C| | | | |].
  - rewrite Val; [reflexivity|]. apply Ks. right. left. now left.
  - rewrite Val; [reflexivity|]. apply Ks. right. left. right. now left.
  - rewrite Val; [reflexivity|]. apply Ks. right. left. right. right. now left.
  - intros n ds I Ed. rewrite Val; [|apply Ks; right; right; eauto]. change (String.eqb ("_cdims_" ++ n) "path") with false. change (String.eqb ("_cdims_" ++ n) "file_format") with false.
    change (String.eqb ("_cdims_" ++ n) "file_version") with false. cbv iota. rewrite scanned_cdims by exact I. unfold own. rewrite Ed. now rewrite join_concat.
  - intros k Nk Nc. rewrite !value_assoc. destruct (assoc k (a_vals (dp_attrs p))) as [v|] eqn:Ev.
    + assert (I : In k (map fst (a_vals (dp_attrs p)))) by (apply assoc_In; eauto). rewrite (Vs k) by (apply Ks; auto).
      destruct (String.eqb_spec k "path") as [->|]; [elim Nk; now left|]. destruct (String.eqb_spec k "file_format") as [->|]; [elim Nk; right; now left|].
      destruct (String.eqb_spec k "file_version") as [->|]; [elim Nk; right; right; now left|]. rewrite scanned_attr by assumption. unfold stored_val.
      destruct (String.eqb_spec k "dims") as [->|]; [elim Nk; do 3 right; now left|]. unfold get_or. now rewrite Ev.
    + assert (X : assoc k (a_vals s) = None); [|now rewrite X]. apply assoc_None. intros I. apply Ks in I as [I|[I|(n & I & ->)]].
      * apply assoc_In in I. destruct I as (v & I). congruence.
      * apply Nk. cbn in I |- *. tauto.
      * now apply (Nc n).
Qed.

(** The whole file: what is scanned and what is read, name by name. *)
Theorem scan_read l f path version : all_storable l -> replaced l -> (forall n p, saved_last l n p -> scannable p) -> save_all l [] = Ok f ->
  exists ns (xs : list (dpatch A * attrs * dpatch A)), dasdae_scan path version f = Ok (map (fun x => snd (fst x)) xs) /\ dasdae_read f = Ok (map snd xs) /\
    names_in_order l ns /\
    Forall2 (fun n x => saved_last l n (fst (fst x)) /\ storable (fst (fst x)) /\ scan_group path version (fresh (fst (fst x))) = Ok (snd (fst x)) /\
       read_patch (fresh (fst (fst x))) = Ok (snd x)) ns xs.
Proof.
  intros H R Sc E. destruct (save_all_holds l H) as (f' & E' & Hf). assert (f' = f) by congruence. subst f'. exists (sort_strs (map fst f)).
  assert (G : forall ns, incl ns (map fst f) -> exists xs : list (dpatch A * attrs * dpatch A),
    map_result (fun name => match assoc name f with Some g => scan_group path version g | None => Err KeyError end) ns = Ok (map (fun x => snd (fst x)) xs) /\
    map_result (fun name => match assoc name f with Some g => read_patch g | None => Err KeyError end) ns = Ok (map snd xs) /\
    Forall2 (fun n x => saved_last l n (fst (fst x)) /\ storable (fst (fst x)) /\ scan_group path version (fresh (fst (fst x))) = Ok (snd (fst x)) /\
       read_patch (fresh (fst (fst x))) = Ok (snd x)) ns xs).
  { induction ns as [|n ns IH]; intros I; [exists []; repeat split; constructor|]. destruct IH as (xs & E1 & E2 & F); [intros x X; apply I; now right|].
    assert (K : In n (map fst f)) by (apply I; now left). apply assoc_In in K. destruct K as (g & Eg). destruct (holds_fresh l f n g H R Hf Eg) as (p & Lp & Sp & Gq).
    destruct (scan_describes p path version Sp (Sc n p Lp)) as (s & Es & _). destruct (read_fresh p Sp) as (p' & Ep & _). exists ((p, s, p') :: xs). cbn [map_result map fst snd]. rewrite Eg.
    rewrite (scan_group_ext path version _ _ Gq), Es, (read_patch_ext _ _ Gq), Ep. cbn [bind]. rewrite E1, E2. split; [reflexivity|]. split; [reflexivity|]. constructor; auto. }
  destruct (G (sort_strs (map fst f))) as (xs & E1 & E2 & F).
  { intros n I. eapply Permutation_in; [apply sort_strs_perm|exact I]. }
  exists xs. split; [exact E1|]. split; [exact E2|]. split; [|exact F]. split; [|split].
  - eapply Permutation_NoDup; [apply Permutation_sym, sort_strs_perm|apply (ho_nodup _ _ Hf)].
  - apply sort_sorted.
  - intros n. rewrite <- (ho_names _ _ Hf n). split; intros I; (eapply Permutation_in; [|exact I]); [apply sort_strs_perm|apply Permutation_sym, sort_strs_perm].
Qed.
Theorem scan_all l f path version : all_storable l -> replaced l -> (forall n p, saved_last l n p -> scannable p) -> save_all l [] = Ok f ->
  exists ns ss ps, dasdae_scan path version f = Ok ss /\ dasdae_read f = Ok ps /\ names_in_order l ns /\
    Forall2 (fun n s => exists p, saved_last l n p /\ describes p path version s) ns ss /\
    Forall2 (fun n p' => exists p, saved_last l n p /\ read_back p p') ns ps.
Proof.
  intros H R Sc E. destruct (scan_read l f path version H R Sc E) as (ns & xs & E1 & E2 & N & F). exists ns, (map (fun x => snd (fst x)) xs), (map snd xs).
  split; [exact E1|]. split; [exact E2|]. split; [exact N|]. clear E1 E2 N. induction F as [|n x ns xs (L & S & Es & Ep) F (IH1 & IH2)]; [split; constructor|]. cbn [map]. split; constructor; auto.
  - exists (fst (fst x)). split; [exact L|]. destruct (scan_describes _ path version S (Sc _ _ L)) as (s & Es' & D). assert (s = snd (fst x)) by congruence. now subst s.
  - exists (fst (fst x)). split; [exact L|]. destruct (read_fresh _ S) as (p' & Ep' & B & _). assert (p' = snd x) by congruence. now subst p'.
Qed.
End Scan.
