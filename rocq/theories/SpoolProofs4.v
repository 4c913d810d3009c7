(** The samples a spool hands out after any sequence of operations. *)
From Verif Require Import Base BaseFacts CoordModel CoordSpec FrameModel ChunkModel FrameSpec FrameProofs FrameProofs2
  FrameProofs3 FrameProofs5 CmProofs SpoolModel SpoolSpec SpoolProofs SpoolProofs2 SpoolProofs3.
From Coq Require Import Strings.String Lia Sorting.Permutation Sorting.Sorted.
Local Open Scope Z_scope.
Local Open Scope list_scope.

Definition ranges_of (k : string) (kw : kwargs) : list (item * item) :=
  flat_map (fun p => match snd p with
                     | QColl [a; b] => if String.eqb (fst p) k then [(a, b)] else []
                     | _ => [] end) kw.
Lemma ranges_of_asked k kw : asked k kw (ranges_of k kw).
Proof.
  intros a b. unfold ranges_of. rewrite in_flat_map. split.
  - intros ([q v] & H & X). cbn [fst snd] in X. destruct v as [| | |[|u [|w [|z l]]]]; cbn in X; try easy.
    destruct (String.eqb q k) eqn:E; [|easy]. apply String.eqb_eq in E. subst.
    destruct X as [X|[]]. injection X as <- <-. auto.
  - intros H. exists (k, QColl [a; b]). split; auto. cbn. rewrite String.eqb_refl. left; auto.
Qed.

Section History.
Context {D : Type} (k path : string) (cols icols : list string) (data : cell -> list (Z * D)).
Context (Ht : tables cols icols) (Hk : interval cols k) (Hp : ~ In path icols).
Let load (r : frow) := data (val r path).

Definition tracked (e : entry) : Prop :=
  exists a b, val (e_row e) (append k "_min") = VInt a /\ val (e_row e) (append k "_max") = VInt b /\ a <= b /\
    (forall x, In x (map fst (load (e_row e))) ->
       (a <= x <= b <-> forall p, In p (e_ranges e) -> inside (fst p) (snd p) x)) /\
    (f_mod (e_row e) = false -> forall x, In x (map fst (load (e_row e))) -> a <= x <= b).

Lemma tracked_start r : f_mod r = false -> truthful k load r -> tracked (mkEntry r []).
Proof.
  intros Hm (a & b & Ha & Hb & Hab & Hx). exists a, b. cbn [e_row e_ranges].
  split; [auto|]. split; [auto|]. split; [auto|]. split; [|auto].
  intros x Hin. split; [intros _ p []|auto].
Qed.

Lemma inside_cut u v a b a' b' x :
  (forall y, low_end u v y -> y <= b) -> (forall y, high_end u v y -> a <= y) -> a <= b ->
  ((forall y, ~ low_end u v y) /\ a' = a \/ exists y, low_end u v y /\ a' = Z.max a y) ->
  ((forall y, ~ high_end u v y) /\ b' = b \/ exists y, high_end u v y /\ b' = Z.min b y) ->
  a' <= b' /\ (a' <= x <= b' <-> a <= x <= b /\ inside u v x).
Proof.
  intros H1 H2 Hab Ha Hb. unfold inside.
  assert (U1 : forall y z, low_end u v y -> low_end u v z -> y = z).
  { intros y z. destruct u as [| |[m|?|]], v as [| |[n|?|]]; cbn; try easy; intros; subst; auto. }
  assert (U2 : forall y z, high_end u v y -> high_end u v z -> y = z).
  { intros y z. destruct u as [| |[m|?|]], v as [| |[n|?|]]; cbn; try easy; intros; subst; auto. }
  assert (U3 : forall y z, low_end u v y -> high_end u v z -> y <= z).
  { intros y z. destruct u as [| |[m|?|]], v as [| |[n|?|]]; cbn; try easy; intros; subst; lia. }
  destruct Ha as [[La ->]|(la & La & ->)], Hb as [[Lb ->]|(lb & Lb & ->)].
  - split; [lia|]. split; [intros; split; [lia|]; split; intros m Hm; exfalso; [eapply La|eapply Lb]; eauto|tauto].
  - specialize (H2 _ Lb). split; [lia|]. split.
    + intros H. split; [lia|]. split; intros m Hm; [exfalso; eapply La; eauto|]. rewrite (U2 _ _ Hm Lb). lia.
    + intros (H & _ & I). specialize (I _ Lb). lia.
  - specialize (H1 _ La). split; [lia|]. split.
    + intros H. split; [lia|]. split; intros m Hm; [|exfalso; eapply Lb; eauto]. rewrite (U1 _ _ Hm La). lia.
    + intros (H & I & _). specialize (I _ La). lia.
  - specialize (H1 _ La). specialize (H2 _ Lb). pose proof (U3 _ _ La Lb). split; [lia|]. split.
    + intros H0. split; [lia|]. split; intros m Hm; [rewrite (U1 _ _ Hm La)|rewrite (U2 _ _ Hm Lb)]; lia.
    + intros (H0 & I & J). specialize (I _ La). specialize (J _ Lb). lia.
Qed.

Lemma unique_key {A} (l : list (string * A)) q v w : NoDup (map fst l) -> In (q, v) l -> In (q, w) l -> v = w.
Proof.
  induction l as [|[p u] t IH]; cbn; intros N H1 H2; [easy|]. inversion N as [|? ? Hn N']; subst.
  destruct H1 as [H1|H1], H2 as [H2|H2].
  - congruence.
  - injection H1 as -> ->. exfalso. apply Hn. now apply (in_map fst) in H2.
  - injection H2 as -> ->. exfalso. apply Hn. now apply (in_map fst) in H1.
  - auto.
Qed.

Lemma tracked_select kw e : clear_query cols icols kw ->
  (forall rs, exists o, clamp_all (range_names cols kw) rs = Ok o) ->
  (forall q v, In (q, v) kw -> meets cols (e_row e) q v) ->
  tracked e -> tracked (mkEntry (clampf (range_names cols kw) (e_row e)) (ranges_of k kw ++ e_ranges e)).
Proof.
  intros Hq Hok M (a & b & Ha & Hb & Hab & Hx & Hm). pose proof Hq as [ND Hsuf].
  destruct (clampf_spec (range_names cols kw) (e_row e)) as (G1 & G2 & G3); [apply NoDup_map_filter; auto|auto|].
  set (g := clampf (range_names cols kw)) in *.
  assert (Nk : ~ has_col cols k) by apply (t_interval _ _ Ht k Hk).
  assert (Ep : val (g (e_row e)) path = val (e_row e) path).
  { apply G1. intros (q & Hq' & Ht'). apply in_map_iff in Hq' as ([q' v] & <- & Hq').
    apply range_names_In in Hq' as (_ & Hi & _). apply (t_interval _ _ Ht) in Hi as [[Hi1 Hi2] _]. cbn in Ht'.
    destruct Ht' as [ -> | -> ]; auto. }
  assert (El : load (g (e_row e)) = load (e_row e)) by (unfold load; now rewrite Ep).
  unfold tracked. cbn [e_row e_ranges]. rewrite El.
  assert (Hm' : f_mod (g (e_row e)) = false -> f_mod (e_row e) = false /\ forall c, val (g (e_row e)) c = val (e_row e) c).
  { intros F. assert (~ (f_mod (g (e_row e)) = true)) as F' by congruence. rewrite G3 in F'. split.
    - destruct (f_mod (e_row e)); auto. exfalso; auto.
    - intros c.
      assert (Dc : forall u v : cell, u = v \/ u <> v) by (intros [] []; try (left; congruence); try (right; congruence);
        [destruct (Z.eq_dec n n0)|destruct (string_dec s s0)]; first [left; congruence | right; congruence]).
      destruct (Dc (val (g (e_row e)) c) (val (e_row e) c)); auto. exfalso. eauto. }
  assert (Cs : (exists u v, In (k, QColl [u; v]) kw) \/ (forall u v, ~ In (k, QColl [u; v]) kw)).
  { clear -kw. induction kw as [|[q w] t [(u & v & IH)|IH]].
    - right. auto.
    - left. exists u, v. right; auto.
    - destruct (String.eqb q k) eqn:E.
      + apply String.eqb_eq in E. subst q. destruct w as [| | |[|u [|v [|z l]]]];
          try (right; intros u' v' [X|X]; [discriminate|eapply IH; eauto]).
        left. exists u, v. left; auto.
      + right. intros u v [X|X]; [|eapply IH; eauto]. injection X as -> _. now rewrite String.eqb_refl in E. }
  destruct Cs as [(u & v & Huv)|Hno].
  - destruct (G2 k u v) with (s := a) (e := b) as (a' & b' & Ta & Tb & Ca & Cb); auto.
    { apply range_names_In. auto. }
    assert (IQ : interval_query (VInt a) (VInt b) u v).
    { destruct (M _ _ Huv) as (_ & _ & _ & M4). rewrite <- Ha, <- Hb. 
      assert (Sk : ~ suffixed k).
      { destruct (Hsuf k) as [X|X]; auto. apply (in_map fst) in Huv; auto. exfalso. apply Nk. now apply (t_sub _ _ Ht). }
      destruct Hk as [K1 K2]. apply M4; auto; intros base E; apply Sk; exists base; auto. }
    destruct IQ as (a0 & b0 & E1 & E2 & I1 & I2). injection E1 as <-. injection E2 as <-.
    exists a', b'. split; auto. split; auto.
    split; [apply (inside_cut u v a b a' b' 0); auto|]. split.
    + intros x Hin. destruct (inside_cut u v a b a' b' x) as [_ ->]; auto. rewrite Hx by auto.
      split.
      * intros [H0 H1] p Hp'. apply in_app_or in Hp' as [Hp'|Hp']; auto.
        destruct p as [pu pv]. apply ranges_of_asked in Hp'.
        pose proof (unique_key _ _ _ _ ND Hp' Huv) as E. injection E as -> ->. auto.
      * intros H0. split; [intros p Hp'; apply H0; apply in_or_app; auto|].
        apply (H0 (u, v)). apply in_or_app. left. now apply ranges_of_asked.
    + intros F x Hin. apply Hm' in F as [F1 F2]. rewrite F2 in Ta, Tb. rewrite Ha in Ta. rewrite Hb in Tb.
      injection Ta as <-. injection Tb as <-. auto.
  - assert (ranges_of k kw = []) as E0.
    { destruct (ranges_of k kw) as [|[u v] t] eqn:E; auto. exfalso. apply (Hno u v). apply ranges_of_asked. rewrite E. left; auto. }
    rewrite E0. cbn [app].
    destruct (clampf_untrimmed (range_names cols kw) k) with (r := e_row e) as [U1 U2]; auto.
    { intros u v X. apply range_names_In in X as [X _]. eapply Hno; eauto. }
    fold g in U1, U2. exists a, b. rewrite U1, U2. split; [auto|]. split; [auto|]. split; [auto|]. split; [auto|]. intros F. apply Hm. now apply Hm'.
Qed.

Lemma tracked_samples s i e lb r f :
  sp_parts s i = Ok [(r, f)] -> e_row e = lb ->
  (forall c, In c icols -> val (n_row r) c = val lb c) -> f_mod (n_row r) = f_mod lb ->
  (forall c, val f c = val lb c) -> tracked e ->
  exists p, sp_samples k load s i = Ok (filter p (load (e_row e))) /\
    forall x, In x (load (e_row e)) -> (p x = true <-> forall u v, In (u, v) (e_ranges e) -> inside u v (fst x)).
Proof.
  intros Hs <- Hc Hm Hf (a & b & Ha & Hb & Hab & Hx & Hmod).
  unfold sp_samples. rewrite Hs. cbn [bind forallb].
  unfold load_part, part_limits. cbn [fst snd].
  destruct (t_interval _ _ Ht k Hk) as [[K1 K2] _].
  change get_cell with val. rewrite !Hc by auto. rewrite Ha, Hb.
  assert (Ef : load f = load (e_row e)) by (unfold load; now rewrite Hf).
  unfold load_trimmed. cbn [i_mod i_min i_max]. rewrite Hm, Ef.
  destruct (f_mod (e_row e)) eqn:F.
  - eexists. split; [reflexivity|]. intros x Hin. cbv beta.
    rewrite Bool.andb_true_iff, !Z.leb_le, Z.min_l, Z.max_r by lia.
    rewrite Hx by now apply in_map. split.
    + intros H u v Huv. apply (H (u, v) Huv).
    + intros H [u v] Huv. now apply H.
  - exists (fun _ => true). split.
    + f_equal. generalize (load (e_row e)). clear. intros l. induction l; cbn; congruence.
    + intros x Hin. split; auto. intros _ u v Huv.
      specialize (Hmod eq_refl (fst x) (in_map fst _ _ Hin)). rewrite Hx in Hmod by now apply in_map. apply (Hmod (u, v) Huv).
Qed.

Lemma StronglySorted_znth (l : list Z) : StronglySorted Z.le l ->
  forall i j a b, i <= j -> znth l i = Some a -> znth l j = Some b -> a <= b.
Proof.
  intros S. induction S as [|x l S IH F]; intros i j a b Hij; [now rewrite !znth_nil|].
  rewrite !znth_cons. destruct (Z.eqb_spec i 0) as [->|Hi], (Z.eqb_spec j 0) as [->|Hj].
  - intros [= ->] [= ->]. lia.
  - intros [= ->] H. apply znth_in in H. rewrite Forall_forall in F. auto.
  - intros H. apply znth_some in H. lia.
  - intros H1 H2. apply (IH (i - 1) (j - 1)); auto. lia.
Qed.

Context (argsort : list Z -> list Z) (HA : valid_argsort argsort).

Lemma map_gather {A B} (f : A -> B) l m ps m' : map f l = m -> gather m ps = Some m' ->
  exists l', gather l ps = Some l' /\ map f l' = m'.
Proof.
  intros <- H. rewrite gather_map in H. destruct (gather l ps) as [l'|]; [|discriminate].
  cbn in H. injection H as <-. eauto.
Qed.
Lemma tracked_gather l ps l' : Forall tracked l -> gather l ps = Some l' -> Forall tracked l'.
Proof.
  intros F G. rewrite Forall_forall in *. intros x Hx. apply F. eapply gather_incl; eauto.
Qed.

Lemma run_entries ops : forall s0 s l0,
  (forall kw, In (OSelect kw) ops -> clear_query cols icols kw) ->
  sinv cols icols s0 -> map e_row l0 = map snd (sp_df s0) -> Forall tracked l0 ->
  sp_run argsort s0 ops = Ok s ->
  exists l, spec_run k cols ops l0 l /\ sinv cols icols s /\ map e_row l = map snd (sp_df s) /\ Forall tracked l.
Proof.
  induction ops as [|op ops IH]; intros s0 s l0 Hq V El T H; cbn [sp_run spec_run] in *.
  - injection H as <-. eauto.
  - destruct (match op with OSlice _ => _ | _ => _ end) as [s1|] eqn:O; [|discriminate]. cbn [bind] in H.
    assert (Hq' : forall kw, In (OSelect kw) ops -> clear_query cols icols kw) by (intros; apply Hq; right; auto).
    assert (L0 : zlen l0 = zlen (sp_df s0)) by (rewrite <- (zlen_map e_row), El, zlen_map; auto).
    assert (X : exists l1, spec_op k cols op l0 l1 /\ sinv cols icols s1 /\ map e_row l1 = map snd (sp_df s1) /\ Forall tracked l1).
    { destruct op as [sl|ix|attr|kw].
      - destruct (slice_inv _ _ _ _ _ V O) as (V1 & ps & Ps & G).
        destruct (map_gather e_row l0 _ ps (map snd (sp_df s1)) El) as (l1 & G1 & E1).
        { rewrite gather_map, G. reflexivity. }
        exists l1. split; [|split; [|split]]; auto.
        + exists ps. rewrite L0. split; auto. now apply items_at_gather.
        + eapply tracked_gather; eauto.
      - destruct (array_inv _ _ _ _ _ V O) as (V1 & ps & Ps & G).
        destruct (map_gather e_row l0 _ ps (map snd (sp_df s1)) El) as (l1 & G1 & E1).
        { rewrite gather_map, G. reflexivity. }
        exists l1. split; [|split; [|split]]; auto.
        + exists ps. rewrite L0. split; auto. now apply items_at_gather.
        + eapply tracked_gather; eauto.
      - destruct (SpoolProofs3.sort_inv _ _ _ _ _ _ HA V O) as (V1 & col & ps & keys & out & C1 & C2 & C3 & C4 & C5 & C6).
        destruct (map_gather e_row l0 _ ps (map snd out) El) as (l1 & G1 & E1).
        { rewrite gather_map, C3. reflexivity. }
        exists l1. split; [|split; [|split]]; auto.
        + exists col. split; auto. split; [apply (gather_perm l0 ps); [now rewrite L0|auto]|].
          exists keys. split; [|now apply StronglySorted_znth].
          rewrite <- C5, <- E1. unfold column. now rewrite map_map.
        + now rewrite C4.
        + eapply tracked_gather; eauto.
      - specialize (Hq kw (or_introl eq_refl)).
        destruct (select_inv _ _ _ _ _ Ht Hq V O) as (V1 & P & HP & Edf & Hok).
        exists (map (fun e => mkEntry (clampf (range_names cols kw) (e_row e)) (ranges_of k kw ++ e_ranges e))
                    (filter (fun e => P (e_row e)) l0)).
        assert (HPe : forall e, In e l0 -> (P (e_row e) = true <-> forall q v, In (q, v) kw -> meets cols (e_row e) q v)).
        { intros e He. apply (in_map e_row) in He. rewrite El in He. apply in_map_iff in He as (x & <- & Hx). auto. }
        split; [|split; [|split]]; auto.
        + exists (fun e => P (e_row e)). split; auto.
          assert (Fe : Forall (fun e => In e l0) (filter (fun e => P (e_row e)) l0)).
          { apply Forall_forall. intros e He. apply filter_In in He. tauto. }
          induction Fe as [|e fl He Fe IHf]; cbn [map]; constructor; auto. cbn [e_row e_ranges].
          split; [|exists (ranges_of k kw); split; auto using ranges_of_asked].
          destruct (clampf_spec (range_names cols kw) (e_row e)) as (G1 & G2 & _); [apply NoDup_map_filter, Hq|auto|].
          split.
          * intros c Hc. apply G1. intros (q & Hq1 & Ht1). apply in_map_iff in Hq1 as ([q' v] & <- & Hq1).
            apply range_names_In in Hq1 as (Hq1 & Hi & Hn). cbn in Ht1. destruct (Hc q'); auto.
            -- apply (in_map fst) in Hq1. auto.
            -- destruct Ht1; auto.
          * intros q a b Hin Hn Hi. apply G2. apply range_names_In. auto.
        + rewrite Edf, !map_map. cbn [snd e_row].
          rewrite <- (map_map e_row (clampf (range_names cols kw))), <- (map_map snd (clampf (range_names cols kw))). f_equal.
          assert (FM : forall {A} (h : A -> frow) l, map h (filter (fun x => P (h x)) l) = filter P (map h l)).
          { intros A h l. induction l as [|x l IHl]; cbn; auto. destruct (P (h x)); cbn; now rewrite IHl. }
          now rewrite !FM, El.
        + rewrite Forall_forall in *. intros x Hx. apply in_map_iff in Hx as (e & <- & He).
          apply filter_In in He as [He Pe]. apply tracked_select; auto. now apply HPe. }
    destruct X as (l1 & S1 & V1 & E1 & T1).
    destruct (IH _ _ _ Hq' V1 E1 T1 H) as (l & S2 & R). eauto.
Qed.

Theorem run_history df ops s :
  NoDup (map fst df) ->
  (forall x, In x df -> f_mod (snd x) = false /\ truthful k load (snd x)) ->
  (forall kw, In (OSelect kw) ops -> clear_query cols icols kw) ->
  sp_run argsort (dummy_spool cols icols df) ops = Ok s ->
  exists l, spec_run k cols ops (map (fun x => mkEntry (snd x) []) df) l /\
    map e_row l = map snd (sp_df s) /\
    forall i e, py_get l i e ->
      exists p, sp_samples k load s i = Ok (filter p (load (e_row e))) /\
        forall x, In x (load (e_row e)) ->
          (p x = true <-> forall a b, In (a, b) (e_ranges e) -> inside a b (fst x)).
Proof.
  intros N Hd Hq H.
  destruct (run_entries ops (dummy_spool cols icols df) s (map (fun x => mkEntry (snd x) []) df) Hq) as (l & S & V & E & T); auto.
  - apply dummy_inv; auto. intros x Hx. now apply Hd.
  - cbn [sp_df dummy_spool]. rewrite map_map. reflexivity.
  - apply Forall_forall. intros e He. apply in_map_iff in He as (x & <- & Hx). destruct (Hd x Hx). now apply tracked_start.
  - exists l. split; auto. split; auto. intros i e Hi.
    assert (Ll : zlen l = sp_len s) by (unfold sp_len; rewrite <- (zlen_map e_row), E, zlen_map; auto).
    set (j := if 0 <=? i then i else sp_len s + i).
    assert (Hj : znth l j = Some e /\ wrap_index (sp_len s) j = j).
    { unfold j. rewrite <- Ll. destruct Hi as [[Hi Z]|[Hi Z]].
      - rewrite wrap_twice by lia. rewrite (proj2 (Z.leb_le 0 i)) by lia. auto.
      - rewrite wrap_twice by lia. rewrite (proj2 (Z.leb_gt 0 i)) by lia. auto. }
    destruct Hj as [Zj Wj].
    assert (exists lb, znth (sp_df s) j = Some (lb, e_row e)) as [lb Zd].
    { assert (znth (map snd (sp_df s)) j = Some (e_row e)) as X by (rewrite <- E, znth_map, Zj; reflexivity).
      rewrite znth_map in X. destruct (znth (sp_df s) j) as [[lb row]|]; [|discriminate]. cbn in X. injection X as ->. eauto. }
    pose proof (i_link _ _ _ V) as Lk. rewrite Forall_forall in Lk.
    destruct (Lk _ (znth_in _ _ _ Zd)) as (r & f & A1 & A2 & A3 & A4 & A5 & A6 & A7 & A8). cbn [fst snd] in *.
    rewrite Forall_forall in T.
    eapply tracked_samples; eauto.
    + eapply sp_parts_one; eauto; try apply V. fold j. rewrite Wj. exact Zd.
    + apply T. eapply znth_in; eauto.
Qed.
End History.
