(** The decorator: requirements, what it writes, and sequences of calls. *)
From Verif Require Import Base BaseFacts CoordModel FrameModel FrameProofs5 ChunkModel CmModel CmProofs AttrsModel AttrsSpec AttrsProofs AttrsProofs2
  HistoryModel HistorySpec HistoryProofs HistoryProofs2.
From Coq Require Import Strings.String.
Local Open Scope Z_scope.
Local Open Scope list_scope.

Section Calls.
Context {B W : Type}.
Implicit Types (p q : hpatch B) (st : state B W) (b : body B W).

Lemma missing_spec need have : missing_from need have = false <-> provided need have.
Proof.
  destruct need as [l|]; cbn; [|tauto]. rewrite Bool.negb_false_iff. unfold subset. rewrite forallb_forall. split.
  - intros H x X. apply mem_In', H, X.
  - intros H x X. now apply mem_In', H.
Qed.
Lemma check_coords_spec f p : check_coords f p = Ok tt <-> provided (f_dims f) (h_dims p) /\ provided (f_coords f) (map fst (h_sums p)).
Proof.
  unfold check_coords. rewrite <- !missing_spec. destruct (missing_from (f_dims f) _), (missing_from (f_coords f) _); cbn; intuition congruence.
Qed.
Lemma check_coords_err f p e : check_coords f p = Err e -> e = PatchCoordinateError.
Proof. unfold check_coords. destruct (_ || _); congruence. Qed.

Lemma named_spec a k : In k (attr_names a) <-> k = "dims"%string \/ k = "coords"%string \/ value_of a k <> None.
Proof.
  unfold attr_names. rewrite value_assoc, <- default_of_spec. cbn [app In]. rewrite in_app_iff.
  assert (D : In k (map fst field_defaults) <-> assoc k field_defaults <> None).
  { destruct (assoc k field_defaults) eqn:E; split; intros H; try congruence.
    - apply assoc_In. eauto.
    - apply assoc_None in E. contradiction. }
  assert (V : In k (map fst (a_vals a)) <-> assoc k (a_vals a) <> None).
  { destruct (assoc k (a_vals a)) eqn:E; split; intros H; try congruence.
    - apply assoc_In. eauto.
    - apply assoc_None in E. contradiction. }
  rewrite D, V. destruct (assoc k (a_vals a)); intuition congruence.
Qed.
Lemma check_attrs_spec f p : check_attrs f p = Ok tt <-> attrs_met (f_attrs f) (h_attrs p).
Proof.
  unfold check_attrs, attrs_met. destruct (f_attrs f) as [|l|l]; [tauto| |].
  - unfold subset. destruct (forallb _ l) eqn:E.
    + split; auto. intros _ k K. apply named_spec. rewrite forallb_forall in E. apply mem_In', E, K.
    + split; [discriminate|]. intros H. exfalso. assert (X : forallb (fun x => mem x (attr_names (h_attrs p))) l = true); [|congruence].
      apply forallb_forall. intros k K. apply mem_In', named_spec, H, K.
  - set (g := fun e : string * scal => do v <- attr_read (h_attrs p) (fst e); Ok (scal_eqb v (snd e))).
    assert (G : (exists vs, map_result g l = Ok vs /\ forallb id vs = true) <->
                forall k v, In (k, v) l -> exists w, attr_read (h_attrs p) k = Ok w /\ scal_eqb w v = true).
    { induction l as [|(k & v) l IH]; cbn [map_result].
      - split; [intros _ k v []|]. intros _. exists []. split; reflexivity.
      - unfold g at 1. cbn [fst snd]. split.
        + intros (vs & E & Fb). destruct (attr_read (h_attrs p) k) as [w|] eqn:R; cbn [bind] in E; [|discriminate].
          destruct (map_result g l) as [vs'|] eqn:M; cbn [bind] in E; [|discriminate]. injection E as <-. cbn [forallb] in Fb.
          apply Bool.andb_true_iff in Fb as (F1 & F2). intros k' v' [H|H]; [injection H as <- <-; eauto|]. apply (proj1 IH); eauto.
        + intros H. destruct (H k v (or_introl eq_refl)) as (w & R & S). rewrite R. cbn [bind].
          destruct (proj2 IH) as (vs & M & Fb); [intros k' v' H'; apply H; now right|]. rewrite M. cbn [bind]. eexists. split; [reflexivity|].
          cbn [forallb]. rewrite Fb. unfold id. now rewrite S. }
    rewrite <- G. destruct (map_result g l) as [vs|e]; cbn [bind].
    + destruct (forallb id vs) eqn:E; split; intros H; try reflexivity; try discriminate; eauto. destruct H as (vs' & H & E'). congruence.
    + split; [discriminate|]. intros (vs & H & _). discriminate.
Qed.
Lemma check_attrs_err f p e : check_attrs f p = Err e -> e = PatchAttributeError \/ exists l k, f_attrs f = TheseAttrs l /\ In k (map fst l) /\ attr_read (h_attrs p) k = Err e.
Proof.
  unfold check_attrs. destruct (f_attrs f) as [|l|l]; [discriminate|destruct (subset _ _); [discriminate|intros [= <-]; now left]|].
  destruct (map_result _ l) as [vs|e'] eqn:M; cbn [bind].
  - destruct (forallb id vs); [discriminate|]. intros [= <-]. now left.
  - intros [= <-]. right. exists l. revert M. induction l as [|(k & v) l IH]; cbn [map_result]; [discriminate|]. cbn [fst snd].
    destruct (attr_read (h_attrs p) k) as [w|e2] eqn:R; cbn [bind].
    + destruct (map_result _ l) eqn:M; cbn [bind]; [discriminate|]. intros [= <-]. destruct (IH eq_refl) as (k' & _ & I & E).
      exists k'. split; [reflexivity|]. split; [now right|exact E].
    + intros [= <-]. exists k. split; [reflexivity|]. split; [now left|exact R].
Qed.

(** What is missing is found before the function is called. *)
Lemma call_refused f b i pos kw st p : nth_error (heap st) i = Some p -> ~ requirements_met f p ->
  exists e, call f b i pos kw st = (Err e, st) /\
    (~ (provided (f_dims f) (h_dims p) /\ provided (f_coords f) (map fst (h_sums p))) -> e = PatchCoordinateError) /\
    (provided (f_dims f) (h_dims p) -> provided (f_coords f) (map fst (h_sums p)) ->
     e = PatchAttributeError \/ exists l k, f_attrs f = TheseAttrs l /\ In k (map fst l) /\ attr_read (h_attrs p) k = Err e).
Proof.
  intros N R. unfold call. rewrite N. destruct (check_coords f p) as [[]|e] eqn:C; cbn [bind].
  - destruct (check_attrs f p) as [[]|e] eqn:A.
    + exfalso. apply R. apply check_coords_spec in C. apply check_attrs_spec in A. unfold requirements_met. tauto.
    + exists e. split; [reflexivity|]. split; [intros X; elim X; now apply check_coords_spec|]. intros _ _. now apply check_attrs_err in A.
  - exists e. split; [reflexivity|]. split; [intros _; now apply check_coords_err in C|]. intros H1 H2.
    assert (X : check_coords f p = Ok tt) by now apply check_coords_spec. congruence.
Qed.

(** ** The entry *)
Definition entry_is (f : pfunc) (pos : list pyval) (kw : list (string * pyval)) (e : list string) : Prop :=
  match f_mode f with
  | NoHistory => e = []
  | NameOnly => e = if String.eqb (f_name f) EmptyString then [] else [f_name f]
  | Full => exists t, call_string (f_name f) (f_sig f) (PPatch :: pos) kw = Ok t /\ e = [t]
  end.
Lemma call_string_ne name g pos kw t : call_string name g pos kw = Ok t -> t <> EmptyString.
Proof.
  unfold call_string. destruct (getcallargs g pos kw) as [[args extra]|]; cbn [bind]; [|discriminate].
  destruct (_ || _); [discriminate|]. intros [= <-]. destruct name; discriminate.
Qed.
Lemma updates_spec f i j q pos kw e h : j <> i -> entry_is f pos kw e -> history_is q h ->
  attr_updates f i j q pos kw = Ok (type_set f ++ match e with [] => [] | _ => [("history"%string, ASeq (h ++ e))] end).
Proof.
  intros N E H. unfold attr_updates. apply Nat.eqb_neq in N. rewrite N. fold (type_set f).
  assert (HL : history_list (h_attrs q) = Ok h).
  { unfold history_list, attr_get. unfold history_is in H. rewrite value_assoc in H. rewrite <- default_of_spec in H. now rewrite H. }
  unfold entry_is in E. unfold history_str. destruct (f_mode f).
  - destruct E as (t & Ct & ->). rewrite Ct. cbn [bind]. destruct t as [|c t]; [|rewrite HL; reflexivity].
    now elim (call_string_ne _ _ _ _ _ Ct).
  - subst e. cbn [bind]. destruct (f_name f) as [|c n]; cbn [String.eqb]; [now rewrite app_nil_r|]. rewrite HL. reflexivity.
  - subst e. cbn [bind]. now rewrite app_nil_r.
Qed.
Lemma updates_same f i q pos kw : attr_updates f i i q pos kw = Ok (type_set f).
Proof. unfold attr_updates. now rewrite Nat.eqb_refl. Qed.

Lemma clear_plain a k : clear_names a -> In k ["data_type"; "data_category"; "data_units"; "instrument_id"; "acquisition_id"; "tag"; "station";
                  "network"; "history"]%string -> apart (names_of a) k /\ k <> "dims"%string /\ k <> "coords"%string.
Proof.
  intros C I. split; [now apply C|]. cbn in I. repeat destruct I as [<-|I]; try (split; discriminate). contradiction.
Qed.
Lemma updates_plain f q x : clear_names (h_attrs q) -> plain_kvs (h_attrs q) (type_set f ++ match x with None => [] | Some h => [("history"%string, ASeq h)] end).
Proof.
  intros C. unfold type_set. split.
  - destruct (f_type f), x; cbn; repeat constructor; cbn; intuition congruence.
  - intros k K. apply clear_plain; auto. destruct (f_type f), x; cbn in K |- *; intuition.
Qed.

(** The general case: a function that made a patch. *)
Lemma call_new f b i pos kw st st' p j q h e :
  nth_error (heap st) i = Some p -> requirements_met f p -> b i pos kw st = (Ok (RRef j), st') -> nth_error (heap st') j = Some q ->
  j <> i -> conforms q -> history_is q h -> entry_is f pos kw e ->
  exists k r s, call f b i pos kw st = (Ok (RRef k), s) /\ nth_error (heap s) k = Some r /\ conforms r /\ history_is r (h ++ e) /\
    only_attrs q (type_set f ++ match e with [] => [] | _ => [("history"%string, ASeq (h ++ e))] end) r /\
    keeps st' s /\ world s = world st' /\
    (type_set f = [] -> e = [] -> k = j /\ s = st') /\
    (type_set f <> [] \/ e <> [] -> k = List.length (heap st') /\ heap s = heap st' ++ [r]).
Proof.
  intros N (R1 & R2 & R3) Eb Nq Nj Cf H E. unfold call. rewrite N.
  assert (X1 : check_coords f p = Ok tt) by now apply check_coords_spec.
  assert (X2 : check_attrs f p = Ok tt) by now apply check_attrs_spec.
  rewrite X1. cbn [bind]. rewrite X2, Eb, Nq, (updates_spec f i j q pos kw e h Nj E H).
  set (kvs := type_set f ++ _).
  assert (P : plain_kvs (h_attrs q) kvs).
  { unfold kvs. destruct e as [|e0 e']; [apply (updates_plain f q None)|apply (updates_plain f q (Some (h ++ e0 :: e')))]; apply (cf_clear _ Cf). }
  assert (Hh : forall r, only_attrs q kvs r -> history_is r (h ++ e)).
  { intros r O. unfold history_is. destruct e as [|e0 e'].
    - rewrite app_nil_r. rewrite (oa_old _ _ _ O); [exact H|discriminate|]. unfold kvs, type_set. destruct (f_type f); cbn; intuition discriminate.
    - apply (oa_new _ _ _ O). unfold kvs. apply in_app_iff. right. now left. }
  assert (Nz : type_set f = [] -> e = [] -> kvs = []) by (intros E1 E2; unfold kvs; now rewrite E1, E2).
  assert (Nz' : kvs = [] -> type_set f = [] /\ e = []).
  { unfold kvs. intros X. apply app_eq_nil in X as (Y1 & Y2). split; [exact Y1|]. destruct e; [reflexivity|discriminate]. }
  clearbody kvs. destruct kvs as [|kv kvs'] eqn:Ek.
  - exists j, q, st'. split; [reflexivity|]. split; [exact Nq|]. split; [exact Cf|].
    assert (O : only_attrs q [] q) by (constructor; try reflexivity; intros k v []).
    split; [now apply Hh|]. split; [exact O|]. split; [intros x y Hx; exact Hx|]. split; [reflexivity|]. split; [auto|].
    destruct (Nz' eq_refl) as (E1 & E2). intros [H0|H0]; contradiction.
  - rewrite <- Ek in *. rewrite (update_attrs_exact q kvs Cf P). cbv beta iota zeta.
    set (r := mkH (with_vals (h_attrs q) kvs) (h_dims q) (h_sums q) (h_body q)).
    assert (O : only_attrs q kvs r) by now apply with_vals_only.
    exists (List.length (heap st')), r, (mkSt (heap st' ++ [r]) (world st')). 
    rewrite Ek at 1. split; [reflexivity|]. split; [cbn; rewrite nth_error_app2 by lia; now rewrite Nat.sub_diag|].
    split; [now apply with_vals_conforms|]. split; [now apply Hh|]. split; [try rewrite <- Ek; exact O|]. split.
    + intros x y Hx. cbn. rewrite nth_error_app1; [exact Hx|]. apply nth_error_Some. congruence.
    + split; [reflexivity|]. split; [|auto]. intros T0 E0. specialize (Nz T0 E0). congruence.
Qed.

(** The same object: no entry. *)
Lemma call_same f b i pos kw st st' p : nth_error (heap st) i = Some p -> requirements_met f p ->
  b i pos kw st = (Ok (RRef i), st') -> f_type f = None -> nth_error (heap st') i <> None -> call f b i pos kw st = (Ok (RRef i), st').
Proof.
  intros N (R1 & R2 & R3) Eb T Nq. unfold call. rewrite N.
  assert (X1 : check_coords f p = Ok tt) by now apply check_coords_spec.
  assert (X2 : check_attrs f p = Ok tt) by now apply check_attrs_spec.
  rewrite X1. cbn [bind]. rewrite X2, Eb. destruct (nth_error (heap st') i) as [q|] eqn:E; [|congruence].
  rewrite updates_same. unfold type_set. now rewrite T.
Qed.
(** What is no patch passes through, and so does a failure. *)
Lemma call_other f b i pos kw st st' p : nth_error (heap st) i = Some p -> requirements_met f p ->
  (b i pos kw st = (Ok ROther, st') -> call f b i pos kw st = (Ok ROther, st')) /\
  (forall e, b i pos kw st = (Err e, st') -> call f b i pos kw st = (Err e, st')).
Proof.
  intros N (R1 & R2 & R3). unfold call. rewrite N.
  assert (X1 : check_coords f p = Ok tt) by now apply check_coords_spec.
  assert (X2 : check_attrs f p = Ok tt) by now apply check_attrs_spec.
  rewrite X1. cbn [bind]. rewrite X2. split; [intros Eb|intros e Eb]; rewrite Eb; reflexivity.
Qed.

(** ** Sequences of calls *)
Lemma call_inv f b i pos kw st r s p : makes_new b -> nth_error (heap st) i = Some p -> conforms p ->
  forall h, history_is p h -> call f b i pos kw st = (Ok r, s) ->
  exists e k q, r = RRef k /\ entry_is f pos kw e /\ nth_error (heap s) k = Some q /\ conforms q /\ history_is q (h ++ e) /\ keeps st s.
Proof.
  intros M N Cf h H E.
  assert (R : requirements_met f p).
  { destruct (check_coords f p) as [[]|er] eqn:C.
    - destruct (check_attrs f p) as [[]|er] eqn:A; [apply check_coords_spec in C; apply check_attrs_spec in A; unfold requirements_met; tauto|].
      unfold call in E. rewrite N, C in E. cbn [bind] in E. rewrite A in E. discriminate.
    - unfold call in E. rewrite N, C in E. discriminate. }
  destruct (b i pos kw st) as [[r0|er] st'] eqn:Eb.
  2:{ rewrite (proj2 (call_other f b i pos kw st st' p N R) er Eb) in E. discriminate. }
  destruct (M i pos kw st r0 st' p N Cf Eb) as (K & j & q & -> & Nj & Nq & Cq & Hq).
  assert (Hq' : history_is q h) by (unfold history_is; rewrite Hq; exact H).
  assert (X : exists e, entry_is f pos kw e).
  { unfold entry_is. destruct (f_mode f) eqn:Em.
    - destruct (call_string (f_name f) (f_sig f) (PPatch :: pos) kw) as [t|er] eqn:Cs; [exists [t]; eauto|].
      exfalso. destruct R as (R1 & R2 & R3). unfold call in E. rewrite N in E.
      assert (X1 : check_coords f p = Ok tt) by now apply check_coords_spec.
      assert (X2 : check_attrs f p = Ok tt) by now apply check_attrs_spec.
      rewrite X1 in E. cbn [bind] in E. rewrite X2, Eb, Nq in E. unfold attr_updates in E. apply Nat.eqb_neq in Nj. rewrite Nj in E.
      unfold history_str in E. rewrite Em, Cs in E. discriminate E.
    - eexists. reflexivity.
    - now exists []. }
  destruct X as (e & He). exists e. destruct (call_new f b i pos kw st st' p j q h e N R Eb Nq Nj Cq Hq' He) as (k & r' & s' & Ec & Nk & Ck & Hk & _ & Ks & _).
  rewrite Ec in E. injection E as <- <-. exists k, r'. repeat (split; [assumption || reflexivity|]). intros x y Hx. apply Ks, K, Hx.
Qed.

Lemma calls_history l : Forall (fun s => makes_new (s_run s)) l -> forall i st p h r s,
  nth_error (heap st) i = Some p -> conforms p -> history_is p h -> calls l i st = (Ok r, s) ->
  exists es k q, Forall2 entry_of l es /\ r = RRef k /\ nth_error (heap s) k = Some q /\ conforms q /\
    history_is q (h ++ List.concat es) /\ keeps st s.
Proof.
  induction l as [|x l IH]; intros Hl i st p h r s N Cf H E; cbn [calls] in E.
  - injection E as <- <-. exists [], i, p. split; [constructor|]. split; [reflexivity|]. split; [exact N|]. split; [exact Cf|].
    split; [cbn; now rewrite app_nil_r|]. intros j q Hj. exact Hj.
  - inversion Hl as [|? ? Hx Hl']; subst. destruct (call (s_func x) (s_run x) i (s_pos x) (s_kw x) st) as [[r0|er] s0] eqn:Ec; [|discriminate].
    destruct (call_inv _ _ _ _ _ _ _ _ p Hx N Cf h H Ec) as (e & k & q & -> & He & Nq & Cq & Hq & K).
    destruct (IH Hl' k s0 q (h ++ e) r s Nq Cq Hq E) as (es & k' & q' & Fe & -> & Nq' & Cq' & Hq' & K').
    exists (e :: es), k', q'. split; [constructor; [exact He|exact Fe]|]. split; [reflexivity|]. split; [exact Nq'|]. split; [exact Cq'|].
    split; [cbn [List.concat]; now rewrite app_assoc|]. intros j y Hj. apply K', K, Hj.
Qed.
End Calls.
