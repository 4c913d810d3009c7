(** PatchAttrs: the flat form read back, and nested updates. *)
From Verif Require Import Base BaseFacts CoordModel FrameModel FrameProofs5 ChunkModel CmModel CmProofs
  AttrsModel AttrsSpec AttrsProofs AttrsProofs2 AttrsProofs5 AttrsProofs8 AttrsProofs9.
From Coq Require Import Strings.String Strings.Ascii.
Local Open Scope Z_scope.

Lemma prefix_substring p : forall s, str_prefix p s = String.eqb (substring 0 (String.length p) s) p.
Proof.
  induction p as [|c p IH]; intros [|d s]; cbn [str_prefix String.length substring]; try reflexivity.
  cbn [String.eqb]. rewrite (Ascii.eqb_sym d c), IH. now destruct (Ascii.eqb c d).
Qed.
Lemma null_flat s : null_step s = s_step (flat_summ s).
Proof. unfold null_step, flat_summ. cbn [s_step]. rewrite (prefix_substring "float"). destruct (s_step s); reflexivity. Qed.
Lemma flat_tidy s : tidy_summ s -> tidy_summ (flat_summ s).
Proof. exact (fun H => H). Qed.

Definition flat_pairs (e : string * summ) : sdict := map (fun x => ((fst e ++ "_" ++ fst x)%string, snd x)) (summ_dict (flat_summ (snd e))).
Lemma assoc_set_app {A} k (v : A) l l' : ~ In k (map fst l) -> assoc_set k v (l ++ l') = l ++ assoc_set k v l'.
Proof.
  induction l as [|(j & w) l IH]; intros N; [reflexivity|]. cbn [app assoc_set map fst In] in *. destruct (String.eqb_spec k j) as [->|]; [tauto|].
  rewrite IH by tauto. reflexivity.
Qed.
Lemma flat_step_eq (n : string) : (n ++ "_step" = n ++ "_" ++ "step")%string.
Proof. reflexivity. Qed.
Lemma append_inj (n a b : string) : (n ++ a = n ++ b)%string -> a = b.
Proof. induction n; cbn; [auto|]. injection 1. auto. Qed.
Lemma eqb_append n a b : String.eqb (n ++ a) (n ++ b) = String.eqb a b.
Proof.
  destruct (String.eqb_spec a b) as [->|N]; [apply String.eqb_refl|]. apply String.eqb_neq. intros E. apply N. now apply append_inj in E.
Qed.
Lemma flat_keys n s : map fst (flat_pairs (n, s)) = map (fun f => n ++ "_" ++ f)%string flat_fields.
Proof. reflexivity. Qed.
Lemma flat_step_one n s base : (forall f, In f flat_fields -> ~ In (n ++ "_" ++ f)%string (map fst base)) ->
  assoc_set (n ++ "_step")%string (null_step s)
    (fold_left (fun v f => assoc_set (n ++ "_" ++ fst f)%string (snd f) v) (summ_dict s) base) = base ++ flat_pairs (n, s).
Proof.
  intros H. change (n ++ "_step")%string with (n ++ "_" ++ "step")%string.
  assert (G : forall l l', (forall e, In e l -> In (fst e) flat_fields) ->
    fold_left (fun v f => assoc_set (n ++ "_" ++ fst f)%string (snd f) v) l (base ++ l') =
    base ++ fold_left (fun v f => assoc_set (n ++ "_" ++ fst f)%string (snd f) v) l l').
  { induction l as [|(f & v) l IH]; intros l' Hl; [reflexivity|]. cbn [fold_left fst snd]. rewrite assoc_set_app.
    - apply IH. intros e E. apply Hl. now right.
    - apply H. exact (Hl (f, v) (or_introl eq_refl)). }
  rewrite <- (app_nil_r base) at 1. rewrite G by (intros e E; change flat_fields with (map fst (summ_dict s)); now apply in_map).
  rewrite assoc_set_app by (apply H; cbn; tauto). f_equal.
  assert (G2 : forall l l', fold_left (fun v f => assoc_set (n ++ "_" ++ fst f)%string (snd f) v) l (map (fun x => ((n ++ "_" ++ fst x)%string, snd x)) l')
     = map (fun x : string * scal => ((n ++ "_" ++ fst x)%string, snd x)) (fold_left (fun v f => assoc_set (fst f) (snd f) v) l l')).
  { assert (G3 : forall k v (l' : sdict), assoc_set (n ++ "_" ++ k)%string v (map (fun x => ((n ++ "_" ++ fst x)%string, snd x)) l')
       = map (fun x => ((n ++ "_" ++ fst x)%string, snd x)) (assoc_set k v l')).
    { intros k v. induction l' as [|(j & w) l' IH]; [reflexivity|]. cbn [map assoc_set fst snd]. rewrite !eqb_append. destruct (String.eqb k j); [reflexivity|].
      cbn [map fst snd]. now rewrite IH. }
    induction l as [|(k & v) l IH]; intros l'; [reflexivity|]. cbn [fold_left fst snd]. rewrite G3. apply IH. }
  pose proof (G2 (summ_dict s ++ [("step"%string, null_step s)]) []) as Q. rewrite fold_left_app in Q. cbn [map fold_left fst snd] in Q. cbn [fold_left fst snd].
  rewrite Q. rewrite null_flat. reflexivity.
Qed.

Lemma field_no_us f : In f flat_fields -> f <> EmptyString.
Proof. intros [<-|[<-|[<-|[<-|[<-|[]]]]]]; discriminate. Qed.
Lemma flat_dump_eq a : NoDup (map fst (a_coords a)) -> (forall n, In n (map fst (a_coords a)) -> ~ contains "_" n) ->
  (forall n k, In n (map fst (a_coords a)) -> In k (map fst (d_vals (dump a))) -> ~ contains "_" k \/ ~ starts n k) ->
  flat_dump a = d_vals (dump a) ++ flat_map flat_pairs (a_coords a).
Proof.
  intros ND Us Ap. unfold flat_dump.
  assert (G : forall l done, NoDup (map fst (done ++ l)) -> incl (done ++ l) (a_coords a) ->
    fold_left (fun v e => assoc_set (fst e ++ "_step")%string (null_step (snd e))
        (fold_left (fun v f => assoc_set (fst e ++ "_" ++ fst f)%string (snd f) v) (summ_dict (snd e)) v)) l
      (d_vals (dump a) ++ flat_map flat_pairs done) = d_vals (dump a) ++ flat_map flat_pairs (done ++ l)).
  { induction l as [|(n & s) l IH]; intros done ND' Il; [now rewrite app_nil_r|]. cbn [fold_left fst snd].
    assert (Inn : In n (map fst (a_coords a))) by (apply in_map_iff; exists (n, s); split; [reflexivity|]; apply Il, in_or_app; right; now left).
    rewrite flat_step_one.
    - rewrite <- app_assoc. replace (flat_map flat_pairs done ++ flat_pairs (n, s)) with (flat_map flat_pairs (done ++ [(n, s)])).
      2:{ rewrite flat_map_app. cbn [flat_map]. now rewrite app_nil_r. }
      rewrite IH; rewrite <- app_assoc; [reflexivity|exact ND'|exact Il].
    - intros f If. rewrite map_app, in_app_iff. intros [H|H].
      + destruct (Ap n _ Inn H) as [C|C]; apply C; [exists n, f; reflexivity|eexists; reflexivity].
      + apply in_map_iff in H. destruct H as ((k & v) & E & H). cbn [fst] in E. apply in_flat_map in H. destruct H as ((m & t) & Hm & H).
        apply (in_map fst) in H. rewrite flat_keys in H. cbn [fst] in H. apply in_map_iff in H. destruct H as (g & Eg & Ig). rewrite E in Eg.
        assert (Im : In m (map fst (a_coords a))) by (apply in_map_iff; exists (m, t); split; [reflexivity|]; apply Il, in_or_app; now left).
        destruct (split_unique m n g f (Us m Im) (Us n Inn) Eg) as (-> & _).
        rewrite map_app in ND'. cbn [map fst] in ND'. apply NoDup_remove_2 in ND'. apply ND', in_or_app. left. apply in_map_iff. now exists (n, t). }
  specialize (G (a_coords a) []). cbn [flat_map app] in G. rewrite app_nil_r in G. apply G; [exact ND|apply incl_refl].
Qed.

(** What separate takes out of the flat form. *)
Lemma fold_skip d (l : sdict) : (forall k, In k (map fst l) -> coord_str_for d k = false) -> forall m,
  fold_left (fun m e => if coord_str_for d (fst e) then assoc_set (word1 (fst e)) (snd e) m else m) l m = (m : sdict).
Proof.
  induction l as [|(k & v) l IH]; intros H m; [reflexivity|]. cbn [fold_left fst]. rewrite (H k (or_introl eq_refl)). apply IH. intros x X. apply H. now right.
Qed.
Lemma not_for d k : ~ starts d k -> coord_str_for d k = false.
Proof. intros N. apply Bool.not_true_iff_false. unfold coord_str_for. rewrite Bool.andb_true_iff. intros (P & _). now apply N, str_prefix_starts. Qed.
Lemma flat_read ds B cs d s : flat_names ds -> (forall n, In n (map fst cs) -> In n ds) -> In d ds -> NoDup (map fst cs) -> In (d, s) cs ->
  (forall k, In k (map fst B) -> k <> "dims"%string -> ~ starts d k /\ k <> ("d_" ++ d)%string) ->
  flat_info (mkDict (B ++ flat_map flat_pairs cs) None) d = summ_dict (flat_summ s).
Proof.
  intros F Ic Id ND I HB. unfold flat_info. cbn [d_vals].
  assert (Kf : forall l k, incl l cs -> In k (map fst (flat_map flat_pairs l)) -> exists n f, In n (map fst l) /\ In f flat_fields /\ k = (n ++ "_" ++ f)%string).
  { intros l k Il K. apply in_map_iff in K. destruct K as ((k' & w) & <- & K). apply in_flat_map in K. destruct K as ((n & t) & K1 & K2).
    apply (in_map fst) in K2. rewrite flat_keys in K2. apply in_map_iff in K2. destruct K2 as (f & <- & K2). exists n, f. split; [apply in_map_iff; now exists (n, t)|]. now split. }
  assert (A : assoc ("d_" ++ d)%string (B ++ flat_map flat_pairs cs) = None).
  { apply assoc_None. rewrite map_app, in_app_iff. intros [H|H].
    - destruct (HB _ H) as (_ & Q); [cbn; discriminate|now apply Q].
    - destruct (Kf cs _ (incl_refl _) H) as (n & f & In_ & _ & E). symmetry in E. now apply (flat_not_d ds n f d F (Ic n In_)). }
  rewrite A. destruct (in_split _ _ I) as (l1 & l2 & E). rewrite E. rewrite flat_map_app. cbn [flat_map]. rewrite !fold_left_app.
  rewrite E, map_app in ND. cbn [map fst] in ND. apply NoDup_remove_2 in ND. rewrite in_app_iff in ND.
  rewrite (fold_skip d B).
  2:{ intros k K. destruct (String.eqb_spec k "dims") as [->|N]; [apply dims_not_field|]. apply not_for, (HB k K N). }
  assert (Sk : forall l, incl l cs -> ~ In d (map fst l) -> forall k, In k (map fst (flat_map flat_pairs l)) -> coord_str_for d k = false).
  { intros l Il Nd k K. destruct (Kf l k Il K) as (n & f & In_ & _ & ->). apply not_for. apply (flat_other ds); [exact F| |exact Id|congruence].
    apply Ic. apply (incl_map fst Il n In_). }
  rewrite (fold_skip d (flat_map flat_pairs l1)).
  2:{ apply Sk; [intros x X; rewrite E; apply in_or_app; now left|tauto]. }
  rewrite (fold_skip d (flat_map flat_pairs l2)).
  2:{ apply Sk; [intros x X; rewrite E; apply in_or_app; right; now right|tauto]. }
  unfold flat_pairs, summ_dict. cbn [map fst snd fold_left]. assert (N1 : ~ contains "_" d) by apply (proj1 (proj2 F) d Id).
  rewrite !coord_str_for_field, !flat_word1 by (cbn; tauto). reflexivity.
Qed.

Definition popped (out : list (string * sdict)) : list string :=
  flat_map (fun e => map (fun f => (fst e ++ "_" ++ f)%string) (map fst (snd e)) ++ (if has_key "step"%string (snd e) then [("d_" ++ fst e)%string] else [])) out.
Lemma del_list l : forall v : sdict, fold_left (fun v k => del k v) l v = filter (fun e => negb (mem (fst e) l)) v.
Proof.
  induction l as [|k l IH]; intros v; cbn [fold_left].
  - symmetry. induction v as [|x v IHv]; [reflexivity|]. cbn. now f_equal.
  - rewrite IH. unfold del. clear IH. induction v as [|(j & w) v IHv]; [reflexivity|]. cbn [filter fst mem existsb].
    change (existsb (String.eqb j) l) with (mem j l) in *. rewrite (String.eqb_sym j k). destruct (String.eqb k j); cbn [negb orb]; [exact IHv|].
    cbn [filter fst]. destruct (mem j l); cbn [negb]; [exact IHv|]. now rewrite IHv.
Qed.
Lemma pop_popped out : forall v, pop_keys out v = filter (fun e => negb (mem (fst e) (popped out))) v.
Proof.
  intros v. rewrite <- del_list. revert v. unfold pop_keys. induction out as [|(n & m) out IH]; intros v; [reflexivity|].
  cbn [fold_left fst snd]. rewrite IH. unfold popped. cbn [flat_map fst snd]. rewrite !fold_left_app. f_equal.
  rewrite <- fold_del_map. now destruct (has_key _ m).
Qed.

Lemma fold_add_flat req o g ds : NoDup ds -> (forall d, In d ds -> flat_info o d = g d /\ meets_required req false (map fst (g d)) = true) ->
  fold_left (add_flat req o) ds [] = map (fun d => (d, g d)) ds.
Proof.
  intros ND H. assert (G : forall l done, NoDup (done ++ l) -> incl l ds ->
    fold_left (add_flat req o) l (map (fun d => (d, g d)) done) = map (fun d => (d, g d)) (done ++ l)).
  { induction l as [|d l IH]; intros done ND' Il; [now rewrite app_nil_r|]. cbn [fold_left]. unfold add_flat at 2.
    destruct (H d (Il d (or_introl eq_refl))) as (E & M). rewrite E, M. rewrite assoc_set_new.
    - replace (map (fun d => (d, g d)) done ++ [(d, g d)]) with (map (fun d => (d, g d)) (done ++ [d])) by now rewrite map_app.
      rewrite IH; [now rewrite <- app_assoc|now rewrite <- app_assoc|]. intros x X. apply Il. now right.
    - rewrite map_map. cbn [fst]. rewrite map_id. apply NoDup_remove_2 in ND'. intros X. apply ND', in_or_app. now left. }
  apply (G ds []); [exact ND|apply incl_refl].
Qed.
Lemma filter_all {A} (p : A -> bool) l : (forall x, In x l -> p x = true) -> filter p l = l.
Proof. induction l as [|x l IH]; intros H; [reflexivity|]. cbn. rewrite (H x (or_introl eq_refl)). f_equal. apply IH. intros y Y. apply H. now right. Qed.
Lemma filter_none {A} (p : A -> bool) l : (forall x, In x l -> p x = false) -> filter p l = [].
Proof. induction l as [|x l IH]; intros H; [reflexivity|]. cbn. rewrite (H x (or_introl eq_refl)). apply IH. intros y Y. apply H. now right. Qed.
Lemma map_result_dims {A} (h : string -> A) (g : A -> sdict) (k : A -> summ) ds : (forall d, In d ds -> mk_summ (g (h d)) = Ok (k (h d))) ->
  map_result (fun e => do s <- mk_summ (snd e); Ok (fst e, s)) (map (fun d => (d, g (h d))) ds) = Ok (map (fun d => (d, k (h d))) ds).
Proof.
  induction ds as [|d ds IH]; intros H; [reflexivity|]. cbn [map map_result fst snd]. rewrite (H d (or_introl eq_refl)). cbn [bind].
  rewrite IH; [reflexivity|]. intros x X. apply H. now right.
Qed.
Lemma assoc_dims {A} (k : string -> A) ds n : In n ds -> assoc n (map (fun d => (d, k d)) ds) = Some (k n).
Proof.
  induction ds as [|d ds IH]; [intros []|]. cbn [map assoc]. destruct (String.eqb_spec n d) as [->|N]; [reflexivity|]. intros [->|H]; [contradiction|now apply IH].
Qed.
Lemma starts_refl n : starts n n.
Proof. exists EmptyString. now rewrite append_nil_r'. Qed.

Theorem flat_round a : family [a] -> clear_names a -> a_dims a <> EmptyString -> flat_names (dim_tuple a) ->
  (forall n, In n (map fst (a_coords a)) <-> In n (dim_tuple a)) ->
  exists r, mk_attrs (mkDict (flat_dump a) None) = Ok r
    /\ (forall k, k <> "dims"%string -> value_of r k = value_of a k) /\ a_dims r = a_dims a
    /\ map fst (a_coords r) = dim_tuple a
    /\ forall n s, assoc n (a_coords a) = Some s -> assoc n (a_coords r) = Some (flat_summ s).
Proof.
  intros F Cl Dn Fl Hc. assert (T : tidy a) by (apply F; now left). pose proof Fl as (NDd & F1 & _).
  assert (Ap : forall k, In k (map fst (a_vals a)) -> apart (names_of a) k) by (intros k K; apply (proj2 F a a); [now left|now left|exact K]).
  destruct (dim_tuple_ne a Dn) as (Dt & Dne). pose proof (dump_good a T Ap Cl Dn) as G. set (B := d_vals (dump a)).
  assert (Bk : forall d k, In d (dim_tuple a) -> In k (map fst B) -> k <> "dims"%string -> ~ starts d k /\ k <> ("d_" ++ d)%string).
  { intros d k Id K N. destruct (g_apart _ _ G k K N) as (_ & A). apply A, dims_in_names, Id. }
  assert (NoUs : ~ contains "_" "dims") by (intros C; apply str_contains_spec in C; vm_compute in C; discriminate).
  assert (FE : flat_dump a = B ++ flat_map flat_pairs (a_coords a)).
  { apply flat_dump_eq; [apply (t_coords _ T)|intros n N; apply Hc in N; apply (F1 n N)|].
    intros n k N K. destruct (String.eqb_spec k "dims") as [->|Nk]; [now left|]. right. apply Hc in N. apply (Bk n k N K Nk). }
  rewrite FE. set (V := B ++ _).
  assert (Kf : forall k, In k (map fst (flat_map flat_pairs (a_coords a))) -> exists n f, In n (dim_tuple a) /\ In f flat_fields /\ k = (n ++ "_" ++ f)%string).
  { intros k K. apply in_map_iff in K. destruct K as ((k' & w) & <- & K). apply in_flat_map in K. destruct K as ((n & t) & K1 & K2).
    apply (in_map fst) in K2. rewrite flat_keys in K2. apply in_map_iff in K2. destruct K2 as (f & <- & K2). exists n, f.
    split; [apply Hc, in_map_iff; now exists (n, t)|]. now split. }
  assert (Vd : assoc "dims"%string V = Some (AStr (a_dims a))) by (unfold V; rewrite assoc_app; unfold B; now rewrite dump_dims).
  set (look := fun d => match assoc d (a_coords a) with Some s => flat_summ s | None => mkSumm "" ANone ANone ANone ANone end).
  assert (Lk : forall d, In d (dim_tuple a) -> exists s, In (d, s) (a_coords a) /\ look d = flat_summ s).
  { intros d Id. apply Hc in Id. apply assoc_In in Id. destruct Id as (s & As). exists s. split; [now apply assoc_in|]. unfold look. now rewrite As. }
  assert (S : separate ["min"; "max"]%string (mkDict V None) (Some (dim_tuple a)) = Ok (map (fun d => (d, summ_dict (look d))) (dim_tuple a), B)).
  { rewrite (separate_same _ V (dim_tuple a) (dim_tuple a)).
    2:{ unfold info_dims. cbn [d_coords d_vals]. rewrite Vd. destruct (String.eqb_spec (a_dims a) EmptyString); [contradiction|]. now rewrite Dt. }
    2:{ now right. }
    2:{ destruct (dim_tuple a) as [|h t] eqn:E; [congruence|]. assert (Ih : In h (h :: t)) by now left. exists h. split; [exact Ih|].
        unfold V. rewrite map_app, in_app_iff. intros [H|H].
        - destruct (String.eqb_spec h "dims") as [->|N]; [apply (proj1 (t_names _ T)), dims_in_names; rewrite E; exact Ih|].
          destruct (Bk h h Ih H N) as (Q & _). apply Q, starts_refl.
        - destruct (Kf h H) as (n & f & _ & _ & Q). apply (proj1 (proj2 (F1 h Ih))). exists n, f. exact Q. }
    rewrite (fold_add_flat _ _ (fun d => summ_dict (look d))); [|exact NDd|].
    2:{ intros d Id. destruct (Lk d Id) as (s & Is & L). rewrite L. split; [|reflexivity]. unfold V.
        apply (flat_read (dim_tuple a)); [exact Fl|intros n; apply Hc|exact Id|apply (t_coords _ T)|exact Is|]. intros k K N. now apply Bk. }
    cbv zeta. rewrite pop_popped. set (out := map _ (dim_tuple a)).
    assert (Pp : forall k, In k (popped out) -> exists d, In d (dim_tuple a) /\ ((exists f, k = (d ++ "_" ++ f)%string) \/ k = ("d_" ++ d)%string)).
    { intros k K. unfold popped in K. apply in_flat_map in K. destruct K as (e & Ie & K). unfold out in Ie. apply in_map_iff in Ie. destruct Ie as (d & <- & Id).
      exists d. split; [exact Id|]. cbn [fst snd] in K. apply in_app_iff in K. destruct K as [K|K].
      - apply in_map_iff in K. destruct K as (f & <- & _). left. now exists f.
      - destruct (has_key _ _) in K; [destruct K as [<-|[]]; now right|destruct K]. }
    assert (Pk : filter (fun e : string * scal => negb (mem (fst e) (popped out))) V = B).
    { unfold V. rewrite filter_app. rewrite filter_all, filter_none, app_nil_r; [reflexivity| |].
      - intros (k & w) K. cbn [fst]. apply Bool.negb_false_iff, mem_In'. apply (in_map fst) in K. cbn [fst] in K.
        destruct (Kf k K) as (n & f & In_ & If & ->). unfold popped. apply in_flat_map. exists (n, summ_dict (look n)). split; [unfold out; now apply in_map_iff; exists n|].
        cbn [fst snd]. apply in_or_app. left. apply in_map_iff. exists f. split; [reflexivity|exact If].
      - intros (k & w) K. cbn [fst]. apply Bool.negb_true_iff, Bool.not_true_iff_false. rewrite mem_In'. intros P. apply (in_map fst) in K. cbn [fst] in K.
        destruct (Pp k P) as (d & Id & P'). destruct (String.eqb_spec k "dims") as [->|N].
        + destruct P' as [(f & Q) | Q]; [apply NoUs; exists d, f; exact Q|discriminate].
        + destruct (Bk d k Id K N) as (Q1 & Q2). destruct P' as [(f & Q) | Q]; [apply Q1; eexists; exact Q|contradiction]. }
    rewrite Pk. assert (Hd : has_key "dims"%string B = true).
    { apply has_key_spec, assoc_In. exists (AStr (a_dims a)). now apply dump_dims. }
    now rewrite Hd. }
  assert (GD : given_dims (mkDict V None) = Ok (Some (dim_tuple a))) by (unfold given_dims; cbn [d_vals]; rewrite Vd; now rewrite Dt).
  unfold mk_attrs. rewrite GD. cbn [bind]. rewrite S. cbn [bind].
  rewrite (map_result_dims look summ_dict (fun s => s)).
  2:{ intros d Id. destruct (Lk d Id) as (s & Is & ->). apply mk_summ_dict, flat_tidy. apply (t_summ _ T d s Is). }
  cbn [bind]. unfold B at 1. rewrite dump_dims by exact T. cbn [bind]. eexists. split; [reflexivity|]. split; [|split; [reflexivity|split]].
  - intros k K. rewrite value_assoc. cbn [a_vals]. rewrite assoc_del. destruct (String.eqb_spec k "dims"); [contradiction|].
    unfold B. rewrite (dump_assoc a k T K). destruct (value_of a k) as [w|] eqn:Ev; [reflexivity|]. rewrite value_assoc in Ev. now destruct (assoc k (a_vals a)).
  - cbn [a_coords]. rewrite map_map. cbn [fst]. apply map_id.
  - intros n s As. cbn [a_coords]. rewrite (assoc_dims look); [unfold look; now rewrite As|]. apply Hc, assoc_In. now exists s.
Qed.

(** ** Nested information *)
Lemma separate_nested c dims : dims <> [] -> ~ In "coords"%string dims -> (forall n m, In (n, m) c -> m <> []) ->
  separate [] (mkDict [] (Some (CDict c))) (Some dims) = Ok (c, [("dims"%string, ASeq dims)]).
Proof.
  intros Dn Nc Hm. unfold separate, info_dims. cbn [d_coords d_vals assoc map potential_keys fold_left filter bind].
  destruct dims as [|h t]; [congruence|].
  assert (SB : subset (h :: t) ([] ++ ["coords"%string]) = false).
  { unfold subset. cbn [forallb app]. destruct (mem h ["coords"%string]) eqn:M; [|reflexivity]. exfalso. apply mem_In' in M. destruct M as [<-|[]]. apply Nc. now left. }
  change (map fst (@nil (string * scal))) with (@nil string). cbn [potential_keys fold_left filter map bind d_vals d_coords]. rewrite SB. cbn [bind].
  assert (FL : forall l out, fold_left (add_flat [] (mkDict [] (Some (CDict c)))) l out = out).
  { induction l as [|d l IH]; intros out; [reflexivity|]. cbn [fold_left]. apply IH. }
  rewrite FL. assert (NI : nested_info [] (mkDict [] (Some (CDict c))) = c).
  { unfold nested_info. cbn [d_coords coval_dict]. apply filter_all. intros (n & m) I. cbn [snd]. specialize (Hm n m I). destruct m as [|(f & v) m]; [congruence|].
    unfold meets_required. cbn [map fst negb andb orb subset forallb]. now destruct (existsb _ _). }
  rewrite NI. rewrite pop_popped. reflexivity.
Qed.
Lemma merge_summ m : forall s, (forall f, In f (map fst m) -> In f ["min"; "max"; "step"; "units"]%string) ->
  merge_fields m (summ_dict s) = summ_dict (fold_left (fun t e => with_field t (fst e) (snd e)) m s).
Proof.
  unfold merge_fields. induction m as [|(f & v) m IH]; intros s H; [reflexivity|]. cbn [fold_left fst snd].
  rewrite field_set by (apply H; now left). apply IH. intros g Q. apply H. now right.
Qed.
Theorem update_nested a n s m : family [a] -> a_dims a <> EmptyString -> assoc n (a_coords a) = Some s ->
  m <> [] -> (forall f, In f (map fst m) -> In f ["min"; "max"; "step"; "units"]%string) ->
  exists r, attrs_update a (mkDict [] (Some (CDict [(n, m)]))) = Ok r /\
    same_attrs (put a n (fold_left (fun t e => with_field t (fst e) (snd e)) m s)) r.
Proof.
  intros F Dn As Mn Hf. assert (T : tidy a) by (apply F; now left).
  assert (Ap : forall k, In k (map fst (a_vals a)) -> apart (names_of a) k) by (intros k K; apply (proj2 F a a); [now left|now left|exact K]).
  destruct (dim_tuple_ne a Dn) as (Dt & Dne).
  assert (In' : In n (map fst (a_coords a))) by (apply assoc_In; now exists s).
  unfold attrs_update. rewrite separate_nested; [|exact Dne|intros H; apply (proj2 (t_names _ T)), dims_in_names, H|intros n' m' [Q|[]]; now injection Q as <- <-].
  cbn [bind d_coords fold_left].
  change (match d_coords (dump_set a) with Some c => coval_dict c | None => [] end) with (full_coords a).
  set (s' := fold_left _ m s).
  assert (Cs : add_info (full_coords a) (n, m) = full_coords (put a n s')).
  { unfold add_info, full_coords. cbn [fst snd]. rewrite assoc_map_snd, As. rewrite merge_summ by exact Hf. unfold put. cbn [a_coords]. now rewrite full_set. }
  rewrite Cs. assert (Ts : tidy_summ s) by (apply (t_summ _ T n), assoc_in, As).
  apply (update_rebuild a (put a n s') (ASeq (dim_tuple a))); try assumption; try reflexivity; [| |now right].
  - apply put_tidy; [exact T|exact In'|]. unfold s'. clear -Ts. revert s Ts. induction m as [|e m IH]; intros s Ts; [exact Ts|]. cbn [fold_left].
    apply IH. now apply with_field_tidy.
  - rewrite put_names_of by exact In'. apply incl_refl.
Qed.
Theorem update_no_coords a : family [a] -> a_dims a <> EmptyString ->
  exists r, attrs_update a (mkDict [] (Some (CDict []))) = Ok r /\ same_attrs (mkAttrs (a_vals a) (a_dims a) []) r.
Proof.
  intros F Dn. assert (T : tidy a) by (apply F; now left).
  assert (Ap : forall k, In k (map fst (a_vals a)) -> apart (names_of a) k) by (intros k K; apply (proj2 F a a); [now left|now left|exact K]).
  destruct (dim_tuple_ne a Dn) as (Dt & Dne).
  unfold attrs_update. rewrite separate_nested; [|exact Dne|intros H; apply (proj2 (t_names _ T)), dims_in_names, H|intros n' m' []].
  cbn [bind d_coords]. assert (Ic : incl (names_of (mkAttrs (a_vals a) (a_dims a) [])) (names_of a)) by (intros x X; now apply dims_in_names).
  change (@nil (string * sdict)) with (full_coords (mkAttrs (a_vals a) (a_dims a) [])).
  apply (update_rebuild a _ (ASeq (dim_tuple a))); try assumption; try reflexivity; [|now right].
  constructor.
  - apply (t_keys _ T).
  - constructor.
  - apply (t_own _ T).
  - reflexivity.
  - split; intros H; [apply (proj1 (t_names _ T)), Ic, H|apply (proj2 (t_names _ T)), Ic, H].
  - intros n s [].
Qed.
