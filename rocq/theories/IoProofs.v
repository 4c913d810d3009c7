(** File handles. *)
From Verif Require Import Base BaseFacts IoModel IoSpec.
From Verif Require ChunkProofs2.
From Coq Require Import Strings.String Lia ZArith.
Local Open Scope Z_scope.
Local Open Scope list_scope.

Lemma rtype_eqb_eq a b : rtype_eqb a b = true <-> a = b.
Proof.
  destruct a, b; cbn; split; intros H; try discriminate; auto; try (injection H as ->);
    try (apply Bool.eqb_prop in H; congruence); try apply Bool.eqb_reflx;
    try (apply Z.eqb_eq in H; congruence); try apply Z.eqb_refl.
Qed.

Lemma lookup_app t c d : lookup t (c ++ d) = match lookup t c with Some v => Some v | None => lookup t d end.
Proof.
  unfold lookup. induction c as [|e c IH]; cbn [app find]; auto. destruct (rtype_eqb (fst e) t); auto.
Qed.

Lemma znth_close fs h i : znth (f_open (close fs h)) i = if i =? h then option_map (fun _ => false) (znth (f_open fs) i) else znth (f_open fs) i.
Proof.
  unfold close. cbn [f_open]. rewrite znth_map, ChunkProofs2.znth_combine, znth_zrange.
  destruct (znth (f_open fs) i) eqn:E.
  - apply znth_some in E. destruct ((0 <=? i) && (i <? zlen (f_open fs))) eqn:F; [|lia]. cbn. destruct (i =? h); auto.
  - destruct (_ && _); cbn; destruct (i =? h); auto.
Qed.
Lemma zlen_close fs h : zlen (f_open (close fs h)) = zlen (f_open fs).
Proof.
  unfold close. cbn [f_open]. rewrite zlen_map, ChunkProofs2.zlen_combine, zlen_zrange. pose proof (zlen_nonneg (f_open fs)). lia.
Qed.

Lemma close_values_spec l : forall fs,
  zlen (f_open (fold_left close_value l fs)) = zlen (f_open fs) /\
  forall i, (In (VHandle i) l -> opened_in fs i -> znth (f_open (fold_left close_value l fs)) i = Some false) /\
            (~ In (VHandle i) l -> znth (f_open (fold_left close_value l fs)) i = znth (f_open fs) i).
Proof.
  induction l as [|v l IH]; intros fs; cbn [fold_left].
  - split; auto. intros i; split; [intros []|auto].
  - destruct (IH (close_value fs v)) as [L S]. destruct v as [| | |h]; cbn [close_value] in *;
      try (split; [exact L|]; intros i; destruct (S i) as [S1 S2]; split;
           [intros [E|E]; [discriminate|auto]|intros E; apply S2; intros ?; apply E; now right]).
    split; [now rewrite L, zlen_close|]. intros i. destruct (S i) as [S1 S2]. rewrite znth_close in S2. split.
    + intros E O. destruct (in_dec Z.eq_dec i (flat_map (fun v => match v with VHandle g => [g] | _ => [] end) l)) as [I|I].
      * apply S1; [|unfold opened_in in *; rewrite zlen_close; auto].
        apply in_flat_map in I. destruct I as ([| | |g] & I & J); cbn in J; try contradiction. destruct J as [<-|[]]. exact I.
      * destruct E as [E|E].
        { injection E as ->. rewrite S2, Z.eqb_refl.
          - destruct (proj2 (znth_range (f_open fs) i) O) as [x ->]. reflexivity.
          - intros J. apply I, in_flat_map. exists (VHandle i). split; auto. now left. }
        { exfalso. apply I, in_flat_map. exists (VHandle i). split; auto. now left. }
    + intros E. rewrite S2 by (intros ?; apply E; now right). destruct (Z.eqb_spec i h) as [->|]; auto.
      exfalso. apply E. now left.
Qed.

Section Runs.
Context (there : string -> bool) (opens : string -> rtype -> bool).
Notation get_handle := (get_handle there opens).
Notation get_resource := (get_resource there opens).
Notation run := (run there opens).

Definition grown (s : rsource) (fs : files) (d : cache) (fs' : files) : Prop :=
  zlen (f_open fs) <= zlen (f_open fs') /\ old_kept fs fs' /\
  (forall h, zlen (f_open fs) <= h < zlen (f_open fs') -> znth (f_open fs') h = Some true /\ In (VHandle h) (map snd d)) /\
  (forall h, In (VHandle h) (map snd d) -> zlen (f_open fs) <= h < zlen (f_open fs') \/ own_handle s h).

Lemma grown_nil s fs fs' : f_open fs = f_open fs' -> grown s fs [] fs'.
Proof.
  intros E. split; [rewrite E; lia|]. split; [intros h _; now rewrite E|]. split; [intros h H; rewrite E in H; lia|].
  intros h [].
Qed.

Lemma grown_trans s fs d fs' e fs'' : grown s fs d fs' -> grown s fs' e fs'' -> grown s fs (d ++ e) fs''.
Proof.
  intros (L & O & N & C) (L' & O' & N' & C').
  split; [lia|]. split; [|split].
  - intros h H. rewrite O', O; auto. unfold opened_in in *. lia.
  - intros h H. rewrite map_app. destruct (Z.lt_ge_cases h (zlen (f_open fs'))) as [B|B].
    + destruct (N h) as [N1 N2]; [lia|]. split.
      * rewrite O'; auto. pose proof (zlen_nonneg (f_open fs)). unfold opened_in. lia.
      * apply in_or_app; auto.
    + destruct (N' h) as [N1 N2]; [lia|]. split; auto. apply in_or_app; auto.
  - intros h H. rewrite map_app in H. apply in_app_or in H. destruct H as [H|H].
    + destruct (C h H); auto. left. lia.
    + destruct (C' h H); auto. left. lia.
Qed.

Lemma grown_open s fs p t v fs' : open_path there opens fs p t = (Fine v, fs') -> grown s fs [(t, v)] fs'.
Proof.
  unfold open_path. set (fs1 := if there p then fs else _).
  assert (E1 : f_open fs1 = f_open fs) by (unfold fs1; destruct (there p); reflexivity).
  destruct (opens p t); [|discriminate]. intros E. injection E as <- <-.
  split; [|split; [|split]]; cbn [f_open map snd In]; rewrite ?E1.
  - rewrite zlen_app. change (zlen [true]) with 1. lia.
  - intros h H. cbn [f_open]. rewrite ?E1, znth_app. unfold opened_in in H. destruct (Z.ltb_spec h (zlen (f_open fs))); auto; lia.
  - intros h H. rewrite zlen_app in H. change (zlen [true]) with 1 in H. assert (h = zlen (f_open fs)) by lia. subst h. split; auto.
    rewrite znth_app, Z.ltb_irrefl, Z.sub_diag. reflexivity.
  - intros h [H|[]]. injection H as <-. left. rewrite ?E1, zlen_app. change (zlen [true]) with 1. lia.
Qed.
Lemma open_raised fs p t e fs' : open_path there opens fs p t = (Raised e, fs') -> f_open fs = f_open fs'.
Proof.
  unfold open_path. set (fs1 := if there p then fs else _).
  assert (E1 : f_open fs1 = f_open fs) by (unfold fs1; destruct (there p); reflexivity).
  destruct (opens p t); [discriminate|]. intros E. injection E as _ <-. auto.
Qed.

Lemma handle_grown fs s t v fs' : get_handle fs s t = (Fine v, fs') -> grown s fs [(t, v)] fs'.
Proof.
  assert (P : forall w, (forall h, w = VHandle h -> own_handle s h) -> grown s fs [(t, w)] fs).
  { intros w W. split; [lia|]. split; [intros h _; auto|]. split; [intros; lia|].
    intros h [H|[]]. right. apply W. exact H. }
  assert (D : forall h r, rewound fs h r = (Fine v, fs') -> own_handle s h -> grown s fs [(t, v)] fs').
  { unfold rewound. intros h r E O. destruct (_ && _); [discriminate|]. injection E as <- <-.
    apply P. intros g G. injection G as <-. exact O. }
  destruct t as [| | |[]|[]|k|k], s; cbn [IoModel.get_handle]; intros E; try discriminate;
    try (injection E as <- <-; apply P; intros ? ?; discriminate);
    try (injection E as <- <-; apply P; intros ? W; injection W as <-; reflexivity);
    try (eapply grown_open; eassumption); try (eapply D; [eassumption|reflexivity]).
Qed.
Lemma handle_raised fs s t e fs' : get_handle fs s t = (Raised e, fs') -> f_open fs = f_open fs'.
Proof.
  assert (D : forall h r, rewound fs h r = (Raised e, fs') -> f_open fs = f_open fs').
  { unfold rewound. intros h r E. destruct (_ && _); [|discriminate]. injection E as _ <-. auto. }
  destruct t as [| | |[]|[]|k|k], s; cbn [IoModel.get_handle]; intros E; try discriminate;
    try (injection E as <- <-; reflexivity); try (eapply open_raised; eassumption); try (eapply D; eassumption).
Qed.

(** A request changes the cache of the outermost manager only. *)
Lemma resource_grown s t : forall ms c fs o ms' fs', get_resource s (ms ++ [c]) fs t = (o, (ms', fs')) ->
  exists d, ms' = ms ++ [c ++ d] /\ grown s fs d fs' /\
    match o with Fine v => t = RNone \/ lookup t (c ++ d) = Some v | Raised _ => True end.
Proof.
  induction ms as [|c0 ms IH]; intros c fs o ms' fs' E.
  - destruct (rtype_eqb t RNone) eqn:Z0.
    { apply rtype_eqb_eq in Z0. subst t. cbn in E. injection E as <- <- <-. exists []. rewrite app_nil_r. split; auto. split; auto. now apply grown_nil. }
    assert (E' : match lookup t c with
          | Some v => (Fine v, ([c], fs))
          | None =>
              match get_handle fs s t with
              | (Fine v, fs') => (Fine v, ([c ++ [(t, v)]], fs'))
              | (Raised e, fs') => (Raised e, ([c], fs'))
              end
          end = (o, (ms', fs'))) by (destruct t; auto; discriminate).
    clear E. destruct (lookup t c) as [v|] eqn:F.
    + injection E' as <- <- <-. exists []. rewrite app_nil_r. split; auto. split; auto. now apply grown_nil.
    + destruct (get_handle fs s t) as [[v|e] fs1] eqn:G; injection E' as <- <- <-.
      * exists [(t, v)]. split; auto. split; [now apply handle_grown|]. right. rewrite lookup_app, F. unfold lookup. cbn.
        rewrite (proj2 (rtype_eqb_eq t t) eq_refl). reflexivity.
      * exists []. rewrite app_nil_r. split; auto. split; auto. apply grown_nil. eapply handle_raised; eauto.
  - destruct (rtype_eqb t RNone) eqn:Z0.
    { apply rtype_eqb_eq in Z0. subst t. cbn in E. injection E as <- <- <-. exists []. rewrite app_nil_r. split; auto. split; auto. now apply grown_nil. }
    assert (E' : match get_resource s (ms ++ [c]) fs t with (o, (ms'', fs')) => (o, (c0 :: ms'', fs')) end = (o, (ms', fs'))).
    { destruct t; try discriminate; cbn [app IoModel.get_resource] in E; destruct (ms ++ [c]) eqn:M; auto; destruct ms; discriminate. }
    destruct (get_resource s (ms ++ [c]) fs t) as [o1 [ms1 fs1]] eqn:G. injection E' as <- <- <-.
    destruct (IH _ _ _ _ _ G) as (d & -> & Gr & O). exists d. auto.
Qed.

Lemma run_grown s b : forall ms c fs o ms' fs', run s b (ms ++ [c]) fs = (o, (ms', fs')) ->
  exists d, ms' = ms ++ [c ++ d] /\ grown s fs d fs'.
Proof.
  induction b as [|e|t caught k IH|inner IHi k IHk]; intros ms c fs o ms' fs' E; cbn [IoModel.run] in E.
  - injection E as <- <- <-. exists []. rewrite app_nil_r. split; auto. now apply grown_nil.
  - injection E as <- <- <-. exists []. rewrite app_nil_r. split; auto. now apply grown_nil.
  - destruct (get_resource s (ms ++ [c]) fs t) as [o1 [ms1 fs1]] eqn:G.
    destruct (resource_grown _ _ _ _ _ _ _ _ G) as (d & -> & Gr & _).
    assert (K : forall o2, run s (k o2) (ms ++ [c ++ d]) fs1 = (o, (ms', fs')) -> exists d, ms' = ms ++ [c ++ d] /\ grown s fs d fs').
    { intros o2 R. destruct (IH o2 _ _ _ _ _ _ R) as (d' & -> & Gr'). exists (d ++ d'). rewrite app_assoc. split; auto.
      eapply grown_trans; eauto. }
    destruct o1 as [v|e]; [eauto|]. destruct caught; [eauto|]. injection E as <- <- <-. eauto.
  - destruct (run s inner ([] :: ms ++ [c]) fs) as [o1 [ms1 fs1]] eqn:G.
    destruct (IHi ([] :: ms) c fs o1 ms1 fs1 G) as (d & -> & Gr). cbn [app] in E.
    destruct o1 as [u|e].
    + destruct (IHk _ _ _ _ _ _ E) as (d' & -> & Gr'). exists (d ++ d'). rewrite app_assoc. split; auto.
      eapply grown_trans; eauto.
    + injection E as <- <- <-. eauto.
Qed.

Theorem with_closed s b fs o ms fs' : with_manager there opens s b fs = (o, (ms, fs')) ->
  zlen (f_open fs) <= zlen (f_open fs') /\ new_closed fs fs' /\
  forall h, opened_in fs h -> ~ own_handle s h -> znth (f_open fs') h = znth (f_open fs) h.
Proof.
  unfold with_manager. intros E. destruct (run s b [[]] fs) as [o1 [ms1 fs1]] eqn:G.
  destruct (run_grown s b [] [] _ _ _ _ G) as (d & -> & (L & O & N & C)). cbn [app] in E. injection E as <- <- <-.
  unfold close_all. destruct (close_values_spec (map snd d) fs1) as [L' S]. rewrite L'. split; [exact L|]. split.
  - intros h H. rewrite L' in H. destruct (S h) as [S1 _]. apply S1; [apply N; lia|].
    pose proof (zlen_nonneg (f_open fs)). unfold opened_in. lia.
  - intros h H W. destruct (S h) as [_ S2]. rewrite S2; [auto|]. intros I. destruct (C h I); auto. unfold opened_in in H. lia.
Qed.

(** The same type gives the same handle, whatever happens in between. *)
Theorem same_handle s t b ms fs v ms1 fs1 o ms2 fs2 :
  ms <> [] -> get_resource s ms fs t = (Fine v, (ms1, fs1)) -> run s b ms1 fs1 = (o, (ms2, fs2)) ->
  get_resource s ms2 fs2 t = (Fine v, (ms2, fs2)) /\ old_kept fs1 fs2.
Proof.
  intros M G R. destruct (exists_last M) as (ms0 & c & ->).
  destruct (resource_grown _ _ _ _ _ _ _ _ G) as (d & -> & _ & V).
  destruct (run_grown _ _ _ _ _ _ _ _ R) as (d' & -> & (_ & O & _)). split; [|exact O].
  destruct (rtype_eqb t RNone) eqn:Z0.
  { apply rtype_eqb_eq in Z0. subst t. destruct ms0 as [|? [|]]; cbn in G |- *; injection G as <- _ _; reflexivity. }
  destruct V as [->|V]; [discriminate|].
  assert (W : lookup t ((c ++ d) ++ d') = Some v) by (rewrite lookup_app, V; auto).
  clear -W Z0. generalize ((c ++ d) ++ d') W. intros e We. induction ms0 as [|c0 ms0 IH].
  - cbn [app]. destruct t; try discriminate Z0; cbn [IoModel.get_resource]; rewrite We; reflexivity.
  - assert (E : get_resource s ((c0 :: ms0) ++ [e]) fs2 t = match get_resource s (ms0 ++ [e]) fs2 t with (o, (ms'', fs')) => (o, (c0 :: ms'', fs')) end).
    { destruct t; try discriminate Z0; cbn [app IoModel.get_resource]; destruct (ms0 ++ [e]) eqn:M; auto; destruct ms0; discriminate. }
    rewrite E, IH. reflexivity.
Qed.
(** What a request returns is open when the source is a path. *)
Theorem handle_open p t b ms fs h ms1 fs1 o ms2 fs2 :
  ms <> [] -> get_resource (SoPath p) ms fs t = (Fine (VHandle h), (ms1, fs1)) ->
  (forall c, In c ms -> c = []) -> run (SoPath p) b ms1 fs1 = (o, (ms2, fs2)) ->
  znth (f_open fs2) h = Some true.
Proof.
  intros M G Em R. destruct (exists_last M) as (ms0 & c & ->).
  destruct (resource_grown _ _ _ _ _ _ _ _ G) as (d & -> & (L & _ & N & C) & V).
  destruct (run_grown _ _ _ _ _ _ _ _ R) as (d' & -> & (L2 & O & _)).
  rewrite (Em c) in V by (apply in_or_app; right; now left). cbn [app] in V.
  assert (I : In (VHandle h) (map snd d)).
  { destruct V as [->|V].
    - destruct ms0 as [|? [|]]; cbn in G; discriminate.
    - unfold lookup in V. destruct (find _ d) as [[t' v]|] eqn:F; [|discriminate]. apply find_some in F. cbn in V. injection V as ->.
      apply in_map_iff. exists (t', VHandle h). split; [reflexivity|apply F]. }
  destruct (C h I) as [B|[]]. rewrite O; [apply N; exact B|]. pose proof (zlen_nonneg (f_open fs)). unfold opened_in. lia.
Qed.

(** ** _type_caster *)
Theorem cast_closed {A} s t g (failed : A) func fs a fs' :
  cast_call there opens s t g failed func fs = (Fine a, fs') ->
  (g = true -> forall v, exists a, func v = Fine a) ->
  new_closed fs fs' /\ old_kept fs fs'.
Proof.
  intros E F. unfold cast_call in E.
  destruct (rtype_eqb t RNone) eqn:Z0.
  { apply rtype_eqb_eq in Z0. subst t. injection E as _ <-. split; [intros h ?; lia|intros h _; auto]. }
  destruct (get_handle fs s t) as [[v|e] fs1] eqn:G.
  2: { assert (fs1 = fs') by (destruct t; try discriminate Z0; congruence). subst fs1. apply handle_raised in G.
       split; intros h H; [rewrite G in H; lia|now rewrite G]. }
  assert (Fv : exists a', func v = Fine a').
  { destruct g; [apply F; auto|]. destruct (func v); [eauto|]. destruct t; discriminate. }
  destruct Fv as [a' Fv]. rewrite Fv in E.
  assert (E' : fs' = if (match s, v with
                          | SoBinary h, VHandle g | SoText h, VHandle g | SoTables h, VHandle g => h =? g
                          | _, _ => false
                          end) then fs1 else close_value fs1 v) by (destruct t; try discriminate Z0; congruence).
  clear E. destruct (handle_grown _ _ _ _ _ G) as (L & O & N & C). cbn [map snd In] in N, C.
  assert (K : match s with SoPath _ | SoObject => True | _ => f_open fs1 = f_open fs end).
  { destruct s; auto; destruct t as [| | |[]|[]|k|k]; cbn in G; try discriminate G;
      try (injection G as _ <-; reflexivity); unfold rewound in G; destruct (_ && _); try discriminate G; injection G as _ <-; reflexivity. }
  assert (T : match s with SoPath _ | SoObject => False | _ => True end -> new_closed fs fs1 /\ old_kept fs fs1).
  { intros J. destruct s; try contradiction; split; intros i H; try (rewrite K in H; lia); now rewrite K. }
  assert (P : new_closed fs (close_value fs1 v) /\ (match s with SoPath _ | SoObject => old_kept fs (close_value fs1 v) | _ => True end)).
  { destruct (close_values_spec [v] fs1) as [L' S]. cbn [fold_left] in L', S. split.
    - intros h H. rewrite L' in H. destruct (N h H) as [_ [->|[]]]. apply S; [now left|].
      pose proof (zlen_nonneg (f_open fs)). unfold opened_in. lia.
    - destruct s; auto; intros h H; destruct (S h) as [_ S2]; (rewrite S2; [apply O, H|]);
        intros [->|[]]; destruct (C h (or_introl eq_refl)) as [B|[]]; unfold opened_in in H; lia. }
  destruct s; destruct P as [P1 P2]; subst fs'; auto; destruct v as [| | |g0]; cbn [close_value] in *; auto;
    destruct (C g0 (or_introl eq_refl)) as [B|B]; try (rewrite K in B; lia); cbn in B; subst; rewrite Z.eqb_refl; auto.
Qed.
End Runs.
