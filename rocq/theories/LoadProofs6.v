(** Loading a patch from its row in the contents. *)
From Verif Require Import Base BaseFacts CoordModel CoordSpec CoordProofs CoordProofs3 CoordProofs5 NdModel NdSpec NdProofs2 FrameModel FrameSpec FrameProofs FrameProofs5 ChunkModel CmModel CmSpec CmProofs CmProofs3 CmProofs4 CmProofs5 CmProofs13
  AttrsModel AttrsSpec AttrsProofs AttrsProofs2 AttrsProofs7 AttrsProofs8 AttrsProofs9 AttrsProofs10 DasdaeModel DasdaeSpec DasdaeProofs DasdaeProofs2 DasdaeProofs3 DasdaeProofs5 HistoryProofs6
  LoadModel LoadSpec LoadProofs LoadProofs3 LoadProofs4 LoadProofs5.
From Coq Require Import Strings.String Strings.Ascii Permutation Lia.
Local Open Scope Z_scope.
Local Open Scope list_scope.

Lemma us_split_r a m b w : ~ contains "_" m -> ~ contains "_" w -> (a ++ String "_" m)%string = (b ++ String "_" w)%string -> a = b /\ m = w.
Proof.
  intros M W. revert b. induction a as [|c a IH]; intros [|d b] E; cbn in E.
  - split; congruence.
  - exfalso. injection E as _ E. apply M. exists b, w. exact E.
  - exfalso. injection E as _ E. apply W. exists a, m. symmetry. exact E.
  - injection E as <- E. destruct (IH b E) as (-> & ->). split; reflexivity.
Qed.

Lemma znth_split {A} (l : list A) : forall i x, znth l i = Some x -> exists l1 l2, l = l1 ++ x :: l2 /\ zlen l1 = i.
Proof.
  induction l as [|y l IH]; intros i x E; [rewrite znth_nil in E; discriminate|]. rewrite znth_cons in E. destruct (Z.eqb_spec i 0) as [Hi|N].
  - exists [], l. split; [injection E as <-; reflexivity|]. subst i. reflexivity.
  - destruct (IH _ _ E) as (l1 & l2 & -> & Z1). exists (y :: l1), l2. split; [reflexivity|]. rewrite zlen_cons. lia.
Qed.
Lemma Forall2_both {A B} (R : A -> B -> Prop) a b : Forall2 R a b -> forall i y, znth b i = Some y -> exists x, znth a i = Some x /\ R x y.
Proof.
  induction 1 as [|x y a b Hxy F IH]; intros i z E; [rewrite znth_nil in E; discriminate|]. rewrite znth_cons in E. rewrite znth_cons. destruct (i =? 0); [injection E as <-; eauto|now apply IH].
Qed.
Lemma saved_unique {A} (l : list (string * dpatch A)) n p q : saved_last l n p -> saved_last l n q -> p = q.
Proof.
  intros (l1 & l2 & -> & N1). intros (m1 & m2 & E & N2). revert m1 E. induction l1 as [|x l1 IH]; intros [|y m1] E; cbn in E.
  - congruence.
  - exfalso. injection E as _ E. apply N1. rewrite E, map_app. apply in_app_iff. right. now left.
  - exfalso. injection E as _ E. apply N2. rewrite <- E, map_app. apply in_app_iff. right. now left.
  - injection E as _ E. now apply (IH m1).
Qed.

Section Load.
Context {A : Type}.
Implicit Types p q r : dpatch A.

Lemma whole_keyb k : (forall b, k <> (b ++ "_min")%string /\ k <> (b ++ "_max")%string) -> whole_key k = true.
Proof.
  intros H. unfold whole_key. apply andb_true_iff. split; apply negb_true_iff.
  - destruct (str_suffix "_min" k) eqn:E; [|reflexivity]. apply str_suffix_spec in E. destruct E as (b & E). exfalso. exact (proj1 (H b) E).
  - destruct (str_suffix "_max" k) eqn:E; [|reflexivity]. apply str_suffix_spec in E. destruct E as (b & E). exfalso. exact (proj2 (H b) E).
Qed.
Lemma coords_names p n : storable p -> In n (map fst (a_coords (dp_attrs p))) <-> In n (map fst (cm_coords (dp_cm p))).
Proof. intros S. rewrite (st_sums _ S). unfold cm_sums. rewrite map_map. cbn [fst]. reflexivity. Qed.

(** Attributes as the scan tells them. *)
Lemma scan_values p path version s : storable p -> scannable p -> scan_group path version (fresh p) = Ok s -> row_plain p -> row_fits p p ->
  clean_row s /\ a_coords s = a_coords (dp_attrs p) /\
  (forall k x, attr_value s k = Some x -> k <> "history"%string -> exempt k \/ attr_value (dp_attrs p) k = Some x) /\
  (forall k, ~ exempt k -> attr_value s k = attr_value (dp_attrs p) k) /\
  (forall k, attr_value s k <> None -> attr_value (dp_attrs p) k <> None \/ In k ["path"; "file_format"; "file_version"]%string \/ exists n, k = ("_cdims_" ++ n)%string).
Proof.
  intros S Sc E P F. assert (T : tidy (dp_attrs p)) by (apply (st_family _ S); now left).
  destruct (scan_fresh p path version S Sc) as (s' & Es & D & C & ND & Ks & Vs). assert (s' = s) by congruence. subst s'.
  destruct (scan_describes p path version S Sc) as (s' & Es' & De). assert (s' = s) by congruence. subst s'. clear Es Es'.
  assert (Ts : tidy s).
  { constructor.
    - exact ND.
    - rewrite C. apply T.
    - split; intros I; apply Ks in I; destruct I as [I|[I|(n & _ & I)]].
      + exact (proj1 (t_own _ T) I).
      + cbn in I. intuition discriminate.
      + discriminate.
      + exact (proj2 (t_own _ T) I).
      + cbn in I. intuition discriminate.
      + discriminate.
    - rewrite D, C. apply T.
    - pose proof (t_names _ T) as H. unfold names_of, dim_tuple in *. rewrite C, D. exact H.
    - rewrite C. apply T. }
  assert (Sub : forall k, attr_value s k <> None -> attr_value (dp_attrs p) k <> None \/ In k ["path"; "file_format"; "file_version"]%string \/
     exists n, In n (map fst (cm_coords (dp_cm p))) /\ k = ("_cdims_" ++ n)%string).
  { intros k H. unfold attr_value in *. destruct (String.eqb_spec k "dims") as [Ek|N]; [left; discriminate|]. rewrite value_assoc in H. destruct (assoc k (a_vals s)) as [v|] eqn:Ea.
    - assert (I : In k (map fst (a_vals s))) by (apply assoc_In; eauto). apply Ks in I as [I|I]; [|now right]. left. rewrite value_assoc. apply assoc_In in I. destruct I as (w & ->). discriminate.
    - left. rewrite value_assoc. destruct (assoc k (a_vals (dp_attrs p))); [discriminate|exact H]. }
  assert (Eq : forall k, ~ exempt k -> attr_value s k = attr_value (dp_attrs p) k).
  { intros k N. unfold attr_value. destruct (String.eqb_spec k "dims") as [Ek|Nd]; [now rewrite D|]. apply (de_vals _ _ _ _ De).
    - intros I. cbn in I. destruct I as [<-|[<-|[<-|[<-|[]]]]]; [| | |now apply Nd]; apply N; left; cbn; tauto.
    - intros n _ ->. apply N. right. exists ("cdims_" ++ n)%string. reflexivity. }
  assert (Cn : forall n, In n (map fst (a_coords s)) <-> In n (map fst (cm_coords (dp_cm p)))) by (intros n; rewrite C; now apply coords_names).
  split; [|split; [exact C|split; [|split; [exact Eq|]]]].
  - constructor; [exact Ts| |].
    + intros n I. apply Cn in I. now apply (rp_names _ P).
    + intros k H. split.
      * intros n I. apply Cn in I. destruct (Sub k H) as [G|[G|(m & Im & ->)]].
        -- apply (rf_names _ _ F n k I). now left.
        -- apply (rf_names _ _ F n k I). now right.
        -- intros (t & St). destruct n as [|c n].
           { apply (rf_names _ _ F EmptyString "dims"%string I); [left; discriminate|]. exists "dims"%string. reflexivity. }
           cbn in St. injection St as <- _. apply (proj1 (rp_names _ P _ I)). exists EmptyString, n. reflexivity.
      * destruct (Sub k H) as [G|[G|(m & Im & ->)]].
        -- apply whole_keyb. now apply (rp_keys _ P).
        -- cbn in G. destruct G as [<-|[<-|[<-|[]]]]; reflexivity.
        -- destruct (rp_names _ P m Im) as (Nu & N1 & N2). change ("_cdims_" ++ m)%string with ("_cdims" ++ String "_" m)%string. unfold whole_key.
           assert (Sf : forall w, ~ contains "_" w -> w <> m -> str_suffix (String "_" w) ("_cdims" ++ String "_" m) = false).
           { intros w Nw Nm. destruct (str_suffix _ _) eqn:E1; [|reflexivity]. exfalso. apply str_suffix_spec in E1. destruct E1 as (b & E1). cbn in E1.
             destruct b as [|c0 b]; cbn in E1.
             - injection E1 as E1. apply Nw. rewrite <- E1. exists "cdims"%string, m. reflexivity.
             - injection E1 as _ E1. change ("cdims" ++ String "_" m = b ++ String "_" w)%string in E1.
               apply us_split_r in E1; [|exact Nu|exact Nw]. destruct E1 as (_ & E1). congruence. }
           assert (W : forall w, In w ["min"; "max"]%string -> ~ contains "_" w) by (intros w [<-|[<-|[]]] X; apply str_contains_spec in X; discriminate).
           rewrite !Sf; try reflexivity; try (apply W; cbn; tauto); congruence.
  - intros k x H N. destruct (attr_value (dp_attrs p) k) as [y|] eqn:Ey.
    + destruct (in_dec string_dec k ["file_version"; "file_format"; "path"; "_modified"; "history"]%string) as [I|I]; [left; now left|].
      destruct (str_prefix "_" k) eqn:Ep; [left; right; apply str_prefix_starts in Ep; destruct Ep as (t & Ep); exists t; exact Ep|].
      right. rewrite <- Ey, <- H. symmetry. apply Eq. intros [X|(t & ->)]; [contradiction|]. now apply Bool.not_true_iff_false in Ep.
    + destruct (Sub k) as [G|[G|(m & _ & ->)]]; [congruence|contradiction| |left; right; exists ("cdims_" ++ m)%string; reflexivity].
      left. left. cbn in G |- *. intuition.
  - intros k H. destruct (Sub k H) as [G|[G|(m & _ & G)]]; eauto.
Qed.

(** What the keywords of a row are. *)
Lemma row_keywords s : clean_row s -> let kw := convert_row (contents_row s) in
  NoDup (map fst kw) /\
  (forall k g, In (k, g) kw ->
     (exists x, g = RVal x /\ attr_value s k = Some x /\ k <> "history"%string) \/
     (exists n f x, In n (map fst (a_coords s)) /\ k = (n ++ String "_" f)%string /\ In f ["dtype"; "step"; "units"]%string /\ g = RVal x) \/
     (exists sm, In (k, sm) (a_coords s) /\ g = RPair (s_min sm) (s_max sm))) /\
  (forall k x, attr_value s k = Some x -> k <> "history"%string -> In (k, RVal x) kw) /\
  (forall n sm, In (n, sm) (a_coords s) -> In (n, RPair (s_min sm) (s_max sm)) kw).
Proof.
  intros C. cbv zeta. destruct (convert_eq s C) as (E & ND). split; [exact ND|]. rewrite E. clear E ND. assert (T := cr_tidy _ C). split; [|split].
  - intros k g I. apply in_app_iff in I as [I|I].
    + apply in_map_iff in I. destruct I as ((k0 & x) & Q & I). injection Q as -> <-. cbn [snd]. apply in_app_iff in I as [I|I].
      * apply filter_In in I as (I & N). cbn [fst] in N. apply negb_true_iff, String.eqb_neq in N. left. exists x. split; [reflexivity|]. split; [|congruence].
        rewrite <- dump_value by exact T. apply in_assoc; [now apply dump_nodup|exact I].
      * apply in_flat_map in I. destruct I as ((n & sm) & In1 & I). right. left. unfold kept_pairs in I. cbn [fst snd In] in I.
        assert (Hn : In n (map fst (a_coords s))) by (apply in_map_iff; exists (n, sm); auto).
        destruct I as [Q|[Q|[Q|[]]]]; injection Q as <- <-; [exists n, "dtype"%string|exists n, "step"%string|exists n, "units"%string]; eexists; (split; [exact Hn|split; [reflexivity|split; [cbn; tauto|reflexivity]]]).
    + apply in_map_iff in I. destruct I as ((n & sm) & Q & I). injection Q as -> <-. right. right. exists sm. auto.
  - intros k x H N. apply in_app_iff. left. apply in_map_iff. exists (k, x). split; [reflexivity|]. apply in_app_iff. left. apply filter_In. split.
    + rewrite <- dump_value in H by exact T. now apply assoc_in.
    + cbn [fst]. apply negb_true_iff, String.eqb_neq. congruence.
  - intros n sm I. apply in_app_iff. right. apply in_map_iff. exists (n, sm). auto.
Qed.

Lemma least_ex l : l <> [] -> exists m, is_least m l.
Proof. destruct l as [|x l]; [congruence|]. intros _. eexists. apply list_min_least. reflexivity. Qed.
Lemma greatest_ex l : l <> [] -> exists m, is_greatest m l.
Proof. destruct l as [|x l]; [congruence|]. intros _. eexists. apply list_max_greatest. reflexivity. Qed.
Lemma summ_ends m u : wf_mcoord m -> ~ placeholder m -> labels_of m <> [] ->
  exists mn mx, is_least mn (labels_of m) /\ is_greatest mx (labels_of m) /\ s_min (m_summ m u) = ANum mn /\ s_max (m_summ m u) = ANum mx.
Proof.
  intros W NP NE. destruct (least_ex _ NE) as (mn & L). destruct (greatest_ex _ NE) as (mx & G). exists mn, mx. split; [exact L|]. split; [exact G|].
  destruct m as [c|k a|sh]; [| |elim NP; exact I].
  - assert (Cc : concrete c) by (destruct c; [exact I|exact I|exact I|elim NP; exact I]).
    destruct c; [| | |destruct Cc]; cbn [m_summ s_min s_max labels_of] in *; rewrite (c_min_least _ mn W Cc L), (c_max_greatest _ mx W Cc G); split; reflexivity.
  - cbn [m_summ s_min s_max labels_of] in *. destruct (nd_flat a) as [|x l] eqn:El; [congruence|]. cbn [list_min list_max opt_num].
    assert (L' : is_least (fold_left Z.min l x) (x :: l)) by now apply list_min_least. assert (G' : is_greatest (fold_left Z.max l x) (x :: l)) by now apply list_max_greatest.
    destruct L as (L1 & L2). destruct G as (G1 & G2). destruct L' as (L1' & L2'). destruct G' as (G1' & G2').
    split; f_equal; apply Z.le_antisymm; auto.
Qed.
Lemma matches_self s : ~ contains_char "[" s -> Matches s s.
Proof.
  intros _. induction s as [|c s IH]; [constructor|]. destruct (ascii_dec c "*") as [->|N1]; [apply M_starS, M_star0, IH|].
  destruct (ascii_dec c "?") as [->|N2]; [now apply M_quest|now apply M_char].
Qed.
Lemma sums_in p n m : storable p -> assoc n (cm_coords (dp_cm p)) = Some m -> In (n, m_summ m (unit_in (dp_units p) n)) (a_coords (dp_attrs p)).
Proof. intros S E. rewrite (st_sums _ S). unfold cm_sums. apply in_map_iff. exists (n, m). split; [reflexivity|now apply assoc_in]. Qed.
Lemma sums_of p n sm : storable p -> In (n, sm) (a_coords (dp_attrs p)) -> exists m, assoc n (cm_coords (dp_cm p)) = Some m /\ sm = m_summ m (unit_in (dp_units p) n).
Proof.
  intros S I. rewrite (st_sums _ S) in I. unfold cm_sums in I. apply in_map_iff in I. destruct I as ((n' & m) & Q & I). injection Q as -> <-. exists m. split; [|reflexivity].
  apply in_assoc; [|exact I]. apply (wf_ckeys _ (wp_cm _ (st_patch _ S))).
Qed.
Lemma same_attr p p' k : same_dpatch p p' -> attr_value (dp_attrs p') k = attr_value (dp_attrs p) k.
Proof. intros D. unfold attr_value. destruct (String.eqb_spec k "dims") as [E|N]; [now rewrite (sd_adims _ _ D)|now apply (sd_vals _ _ D)]. Qed.
Lemma not_filter_exempt k x : exempt k -> k <> "history"%string -> not_filter k (RVal x).
Proof. intros [I|H] N; [|right; now left]. left. cbn in I |- *. intuition congruence. Qed.
Lemma field_whole n f : ~ contains "_" n -> In f ["dtype"; "step"; "units"]%string -> forall b, (n ++ String "_" f)%string <> (b ++ "_min")%string /\ (n ++ String "_" f)%string <> (b ++ "_max")%string.
Proof.
  intros N F b. assert (Sf : forall w, str_suffix (String "_" w) (n ++ String "_" f)%string = String.eqb f w) by (intros w; apply field_suffix; [exact N|apply fields_us; cbn in F |- *; tauto]).
  split; intros E; [assert (H : str_suffix "_min" (n ++ String "_" f)%string = true)|assert (H : str_suffix "_max" (n ++ String "_" f)%string = true)];
    try (apply str_suffix_spec; exists b; exact E); rewrite Sf in H; destruct F as [<-|[<-|[<-|[]]]]; discriminate.
Qed.

(** The row of [p] as keywords can be asked of [r]. *)
Lemma row_asked p path version s r r' : storable p -> scannable p -> scan_group path version (fresh p) = Ok s -> row_plain p -> row_fits p p ->
  storable r -> row_plain r -> row_fits p r -> row_fits r p -> same_dpatch r r' ->
  can_answer (convert_row (contents_row s)) r' /\ can_select (convert_row (contents_row s)) r'.
Proof.
  intros S Sc E P F Sr Pr Fpr Frp D. destruct (scan_values p path version s S Sc E P F) as (C & Ec & V & Eq & Sub).
  destruct (row_keywords s C) as (K1 & K2 & K3 & K4). rewrite Ec in K2, K4. set (kw := convert_row (contents_row s)) in *.
  assert (Nm : forall b, attr_value (dp_attrs r) (b ++ "_min") = None).
  { intros b. destruct (attr_value (dp_attrs r) (b ++ "_min")) eqn:Q; [|reflexivity]. exfalso. refine (proj1 (rp_keys _ Pr (b ++ "_min")%string _ b) eq_refl). congruence. }
  assert (Us : forall n, In n (map fst (cm_coords (dp_cm p))) \/ In n (map fst (cm_coords (dp_cm r))) -> ~ contains "_" n) by (intros n [I|I]; [now apply (rp_names _ P)|now apply (rp_names _ Pr)]).
  assert (Nn : forall n t, In n (map fst (cm_coords (dp_cm p))) -> attr_value (dp_attrs r) (n ++ t) = None).
  { intros n t I. destruct (attr_value (dp_attrs r) (n ++ t)) eqn:Q; [|reflexivity]. exfalso. apply (rf_names _ _ Frp n (n ++ t)%string I); [left; congruence|]. exists t. reflexivity. }
  assert (Wn : forall n b, ~ contains "_" n -> n <> (b ++ "_min")%string /\ n <> (b ++ "_max")%string).
  { intros n b N. split; intros ->; apply N; [exists b, "min"%string|exists b, "max"%string]; reflexivity. }
  split.
  - intros k g I Nf. unfold attr_askable. rewrite !(same_attr _ _ _ D). destruct (K2 k g I) as [(x & -> & Hx & Nh)|[(n & f & x & Hn & -> & Hf & ->)|(sm & Hs & ->)]].
    + destruct (V k x Hx Nh) as [Ex|Hp]; [exfalso; now apply Nf, not_filter_exempt|].
      assert (Nx : ~ exempt k) by (intros Ex; now apply Nf, not_filter_exempt). pose proof (rf_values _ _ Fpr k x Hp Nx) as Cp. unfold comparable in Cp.
      destruct (attr_value (dp_attrs r) k) as [y|].
      * destruct x; try (exfalso; apply Nf; right; right; auto; fail); destruct y; try contradiction; exact Cp || exact I || idtac.
      * split; [|left; apply Nm]. apply (rp_keys _ P). congruence.
    + apply (coords_names _ _ S) in Hn. rewrite (Nn n (String "_" f) Hn). split; [|left; apply Nm]. apply field_whole; [apply Us; now left|exact Hf].
    + assert (Hn : In k (map fst (cm_coords (dp_cm p)))) by (apply (coords_names _ _ S); apply in_map_iff; exists (k, sm); auto).
      pose proof (Nn k EmptyString Hn) as Q. rewrite append_nil_r' in Q. rewrite Q. split; [|left; apply Nm]. intros b. apply Wn, Us. now left.
  - assert (Ik : forall n, In n (map fst (cm_coords (dp_cm r'))) <-> In n (map fst (cm_coords (dp_cm r)))) by (intros n; rewrite <- !assoc_In, (sd_coords _ _ D); reflexivity).
    constructor.
    + intros n I. rewrite (sd_dims _ _ D). apply (rp_plain _ Pr). now apply Ik.
    + exact K1.
    + intros n m d _ _ H1 H2. unfold ranges_over in *. rewrite (sd_dmap _ _ D) in *. rewrite (rp_one _ Pr n d H1), (rp_one _ Pr m d H2). reflexivity.
    + intros n g d c I _ Hc. rewrite (sd_coords _ _ D) in Hc. assert (Hr : In n (map fst (cm_coords (dp_cm r)))) by (apply assoc_In; eauto).
      assert (Hu : ~ contains "_" n) by (apply Us; now right).
      destruct (K2 n g I) as [(x & -> & Hx & Nh)|[(n' & f & x & Hn & -> & Hf & ->)|(sm & Hs & ->)]].
      * exfalso. destruct (Sub n) as [Q|[Q|(m & ->)]]; [congruence| | |].
        -- apply (rf_names _ _ Fpr n n Hr); [now left|]. exists EmptyString. now rewrite append_nil_r'.
        -- apply (rf_names _ _ Fpr n n Hr); [now right|]. exists EmptyString. now rewrite append_nil_r'.
        -- apply Hu. exists EmptyString, ("cdims_" ++ m)%string. reflexivity.
      * exfalso. apply Hu. exists n', f. reflexivity.
      * destruct (sums_of _ _ _ S Hs) as (m & Hm & ->). destruct (rp_labels _ P n m Hm) as (_ & NP & NE).
        destruct (summ_ends m (unit_in (dp_units p) n) (wf_vals _ (wp_cm _ (st_patch _ S)) _ _ Hm) NP NE) as (mn & mx & L & G & -> & ->).
        destruct (rp_labels _ Pr n (M1 c) Hc) as (_ & NPc & NEc). destruct (least_ex _ NEc) as (a & La). destruct (greatest_ex _ NEc) as (b & Gb). cbn [labels_of] in La, Gb.
        eexists. cbn [range_of]. exists (Some mn), (Some mx). split; [right; eauto|]. split; [right; eauto|]. unfold asks_values.
        destruct c; [| | |elim NPc; exact Logic.I]; (split; [intros g0 [= <-]; eapply (rp_step _ Pr); eassumption|exists a, b; split; [exact La|split; [exact Gb|reflexivity]]]).
Qed.

Lemma labels_len c : wf_coord c -> ~ placeholder (M1 c) -> zlen (c_ints c) = c_len c.
Proof. intros W N. apply wf_len; [exact W|]. destruct c; try exact I. elim N; exact I. Qed.

(** The row answers for the patch it was made of ... *)
Lemma row_answers p path version s p' : storable p -> scannable p -> scan_group path version (fresh p) = Ok s -> row_plain p -> row_fits p p -> same_dpatch p p' ->
  answers (convert_row (contents_row s)) p'.
Proof.
  intros S Sc E P F D. destruct (scan_values p path version s S Sc E P F) as (C & Ec & V & Eq & Sub).
  destruct (row_keywords s C) as (K1 & K2 & K3 & K4). rewrite Ec in K2, K4. set (kw := convert_row (contents_row s)) in *.
  assert (Nn : forall n t, In n (map fst (cm_coords (dp_cm p))) -> attr_value (dp_attrs p) (n ++ t) = None).
  { intros n t I. destruct (attr_value (dp_attrs p) (n ++ t)) eqn:Q; [|reflexivity]. exfalso. apply (rf_names _ _ F n (n ++ t)%string I); [left; congruence|]. exists t. reflexivity. }
  intros k g I Nf. unfold attr_answers. rewrite (same_attr _ _ _ D). destruct (K2 k g I) as [(x & -> & Hx & Nh)|[(n & f & x & Hn & -> & Hf & ->)|(sm & Hs & ->)]].
  - destruct (V k x Hx Nh) as [Ex|Hp]; [exfalso; now apply Nf, not_filter_exempt|].
    assert (Nx : ~ exempt k) by (intros Ex; now apply Nf, not_filter_exempt). pose proof (rf_values _ _ F k x Hp Nx) as Cp. unfold comparable in Cp. rewrite Hp in Cp |- *.
    destruct x; try (exfalso; apply Nf; right; right; auto; fail); try contradiction; [reflexivity|now apply matches_self].
  - apply (coords_names _ _ S) in Hn. now rewrite (Nn n (String "_" f) Hn).
  - assert (Hn : In k (map fst (cm_coords (dp_cm p)))) by (apply (coords_names _ _ S); apply in_map_iff; exists (k, sm); auto).
    pose proof (Nn k EmptyString Hn) as Q. rewrite append_nil_r' in Q. now rewrite Q.
Qed.
(** ... and selects all of it. *)
Lemma row_selects p path version s p' q : storable p -> scannable p -> scan_group path version (fresh p) = Ok s -> row_plain p -> row_fits p p -> same_dpatch p p' ->
  wf_patch (dp_patch p') -> selected (convert_row (contents_row s)) p' q -> loaded p q.
Proof.
  intros S Sc E P F D Wp (psf & names & pick & own & Re & Ra & Al & (Pk1 & Pk2 & Pk3 & Pk4) & Qu & Qv & Qd & Qc).
  destruct (scan_values p path version s S Sc E P F) as (C & Ec & V & Eq & Sub).
  destruct (row_keywords s C) as (K1 & K2 & K3 & K4). rewrite Ec in K2, K4. set (kw := convert_row (contents_row s)) in *.
  assert (W := wp_cm _ Wp). change (p_cm (dp_patch p')) with (dp_cm p') in *.
  assert (Ws := wp_cm _ (st_patch _ S)). change (p_cm (dp_patch p)) with (dp_cm p) in *.
  assert (Full : forall d, In d (cm_dims (dp_cm p')) -> pick d = pick0 (dp_cm p') d).
  { intros d Id. destruct (con_dim _ (wf_con _ W) d Id) as ((c & Hc) & Hd). destruct (in_dec string_dec d names) as [J|J].
    - rewrite (Pk1 d d J Hd). assert (Hp := Hc). rewrite (sd_coords _ _ D) in Hp. assert (Ik := K4 _ _ (sums_in _ _ _ S Hp)).
      pose proof (Ra d _ c Ik J Hc) as R. destruct (rp_labels _ P d _ Hp) as (_ & NP & NE).
      destruct (summ_ends (M1 c) (unit_in (dp_units p) d) (wf_vals _ Ws _ _ Hp) NP NE) as (mn & mx & L & G & Em & Ex). rewrite Em, Ex in R.
      cbn [range_of labels_of] in *. destruct R as (lo & hi & [(X & _)|(z & X & Hl)] & [(Y & _)|(y & Y & Hh)] & As); try discriminate. injection X as <-. injection Y as <-. subst lo hi.
      assert (Ps : psf d = zrange (zlen (c_ints c))).
      { unfold asks_values in As. assert (As' : exists mn' mx', is_least mn' (c_ints c) /\ is_greatest mx' (c_ints c) /\ psf d = positions_where (between (resolve false mn' mx' (Some mn)) (resolve false mn' mx' (Some mx))) (c_ints c)).
        { destruct c; [exact (proj2 As)|exact (proj2 As)|exact (proj2 As)|elim NP; exact I]. }
        destruct As' as (mn' & mx' & _ & _ & ->). cbn [resolve]. unfold positions_where. apply AttrsProofs10.filter_all. intros i Hi. apply in_zrange in Hi.
        destruct (znth (c_ints c) i) as [y|] eqn:Ey; [|apply znth_none in Ey; lia]. apply znth_in in Ey. cbn [between].
        pose proof (proj2 L _ Ey). pose proof (proj2 G _ Ey). apply andb_true_iff. split; apply Z.leb_le; lia. }
      rewrite Ps. rewrite (labels_len c (wf_vals _ Ws _ _ Hp) NP). symmetry. apply pick0_len. exists c. auto.
    - apply Pk3. intros n Jn Hn. assert (n = d) by (apply (rp_one _ P); unfold ranges_over; now rewrite <- (sd_dmap _ _ D)). subst n. contradiction. }
  destruct Al as (Wq & (Ad & Am & Ac) & Nd).
  assert (Dt : p_data (dp_patch q) = p_data (dp_patch p')).
  { symmetry. apply nd_picked_full_eq; [apply (wp_nd _ Wp)|]. rewrite <- (dims_shape (p_cm (dp_patch p')) _ W (wp_shape _ Wp)). rewrite (map_ext_in _ pick); [exact Nd|]. intros d Id. symmetry. now apply Full. }
  constructor.
  - rewrite Dt. apply (sd_data _ _ D).
  - unfold dp_cm in *. rewrite Ad. apply (sd_dims _ _ D).
  - intros n. unfold dp_cm in *. rewrite Am. apply (sd_dmap _ _ D).
  - intros n. specialize (Ac n). unfold dp_cm in *. rewrite (sd_coords _ _ D) in Ac. unfold dp_cm in Ac. destruct (assoc n (cm_coords (p_cm (dp_patch p)))) as [m|] eqn:Em.
    + assert (Em' := Em). rewrite <- (sd_coords _ _ D) in Em'. unfold dp_cm in Em'. destruct (assoc n (cm_coords (p_cm (dp_patch q)))) as [m'|]; [|contradiction].
      assert (Pf : picks_of (p_cm (dp_patch p')) pick own n = full (m_shape m)).
      { rewrite <- (picks0 (p_cm (dp_patch p')) n m W Em'). destruct (wf_lookup (p_cm (dp_patch p')) n m W Em') as (ds & Dm & Ds & _). unfold picks_of. rewrite Dm. destruct ds as [|d ds].
        - exfalso. rewrite (sd_dmap _ _ D) in Dm. exact (st_owned _ S n [] Dm eq_refl).
        - apply map_ext_in. intros x J. apply Full, Ds, J. }
      rewrite Pf in Ac. destruct (rp_labels _ P n m Em) as (_ & NP & NE). assert (Wm := wf_vals _ Ws _ _ Em). destruct m as [c|k a|sh].
      * destruct Ac as (c' & ps & -> & Ep & Ca). cbn [m_shape full map] in Ep. injection Ep as <-. unfold carried1 in Ca.
        assert (Ca' : exists vs, gather (c_ints c) (zrange (c_len c)) = Some vs /\ represents c' vs) by (destruct c; [exact Ca|exact Ca|exact Ca|elim NP; exact I]).
        destruct Ca' as (vs & Gv & Rv). rewrite <- (labels_len c Wm NP), gather_zrange in Gv. injection Gv as <-. exact Rv.
      * cbn [m_shape carried] in Ac. destruct Wm as (Wn & _ & Sz). unfold full in Ac. change (map zrange (nd_shape a)) with (full (nd_shape a)) in Ac. rewrite map_zlen_full in Ac by apply Wn.
        destruct (Z.eqb_spec (size (nd_shape a)) 0) as [Z0|_]; [lia|]. destruct Ac as (b & -> & Nb). f_equal. symmetry. now apply nd_picked_full_eq.
      * elim NP; exact I.
    + destruct (assoc n (cm_coords (p_cm (dp_patch q)))); [contradiction|exact I].
  - intros n I. rewrite Qu. now apply (sd_units _ _ D).
  - intros k N. rewrite !value_assoc, Qv, <- !value_assoc. now apply (sd_vals _ _ D).
  - rewrite Qd. apply (sd_adims _ _ D).
Qed.
Lemma loaded_some p q : storable p -> row_plain p -> loaded p q -> ~ empty q.
Proof.
  intros S P L Em. unfold empty in Em. rewrite (lo_data _ _ L) in Em. pose proof (wp_shape _ (st_patch _ S)) as Fs.
  assert (X : exists d, dim_len (dp_cm p) d 0).
  { clear - Em Fs. unfold dp_cm. induction Fs as [|d k l sh H Fs IH]; [destruct Em|]. destruct Em as [->|Em]; [now exists d|now apply IH]. }
  destruct X as (d & c & Ec & El). destruct (rp_labels _ P d _ Ec) as (_ & NP & NE). apply NE. cbn [labels_of].
  pose proof (labels_len c (wf_vals _ (wp_cm _ (st_patch _ S)) _ _ Ec) NP) as H. rewrite El in H. destruct (c_ints c); [reflexivity|]. rewrite zlen_cons in H. pose proof (zlen_nonneg l). lia.
Qed.

(** Other patches give nothing. *)
Lemma row_other p path version s r r' : storable p -> scannable p -> scan_group path version (fresh p) = Ok s -> row_plain p -> row_fits p p ->
  storable r -> row_plain r -> row_fits p r -> same_dpatch r r' -> wf_patch (dp_patch r') -> other_than p r ->
  ~ answers (convert_row (contents_row s)) r' \/ forall q, selected (convert_row (contents_row s)) r' q -> empty q.
Proof.
  intros S Sc E P F Sr Pr Fpr D Wr O. destruct (scan_values p path version s S Sc E P F) as (C & Ec & V & Eq & Sub).
  destruct (row_keywords s C) as (K1 & K2 & K3 & K4). rewrite Ec in K2, K4. set (kw := convert_row (contents_row s)) in *.
  destruct O as [(k & x & Hk & Nx & Nn & Nl & Na)|(d & m & c & Hm & Hd & Hc & Ap)].
  - left. intros An. apply Na. assert (Nh : k <> "history"%string) by (intros ->; apply Nx; left; cbn; tauto). specialize (An k (RVal x)).
    unfold attr_answers in *. rewrite (same_attr _ _ _ D) in An. apply An.
    + apply K3; [|exact Nh]. now rewrite Eq.
    + intros [I|[(t & ->)|[I|I]]]; [apply Nx; left; cbn in I |- *; tauto|apply Nx; right; now exists t|congruence|congruence].
  - right. intros q (psf & names & pick & own & Re & Ra & (Wq & _ & Nd) & (Pk1 & _) & _).
    assert (Hd' : In d (cm_dims (dp_cm r'))) by now rewrite (sd_dims _ _ D). destruct (con_dim _ (wf_con _ (wp_cm _ Wr)) d Hd') as (_ & Hm').
    assert (Ik := K4 _ _ (sums_in _ _ _ S Hm)). assert (J : In d names).
    { apply Re. split; [apply in_map_iff; eexists; split; [|exact Ik]; reflexivity|]. exists d. exact Hm'. }
    assert (Hc' : assoc d (cm_coords (dp_cm r')) = Some (M1 c)) by now rewrite (sd_coords _ _ D). pose proof (Ra d _ c Ik J Hc') as R.
    destruct (rp_labels _ P d m Hm) as (_ & NP & NE). destruct (rp_labels _ Pr d _ Hc) as (_ & NPc & NEc).
    destruct (summ_ends m (unit_in (dp_units p) d) (wf_vals _ (wp_cm _ (st_patch _ S)) _ _ Hm) NP NE) as (mn & mx & L & G & Em & Ex). rewrite Em, Ex in R.
    cbn [range_of labels_of] in *. destruct R as (lo & hi & [(X & _)|(z & X & Hl)] & [(Y & _)|(y & Y & Hh)] & As); try discriminate. injection X as <-. injection Y as <-. subst lo hi.
    assert (Ps : psf d = []).
    { unfold asks_values in As. assert (As' : exists mn' mx', is_least mn' (c_ints c) /\ is_greatest mx' (c_ints c) /\ psf d = positions_where (between (resolve false mn' mx' (Some mn)) (resolve false mn' mx' (Some mx))) (c_ints c)).
      { destruct c; [exact (proj2 As)|exact (proj2 As)|exact (proj2 As)|elim NPc; exact I]. }
      destruct As' as (mn' & mx' & _ & _ & ->). cbn [resolve]. unfold positions_where. apply AttrsProofs10.filter_none. intros i Hi.
      destruct (znth (c_ints c) i) as [y|] eqn:Ey; [|reflexivity]. apply znth_in in Ey. cbn [between]. pose proof (proj2 L _ (proj1 G)).
      apply andb_false_iff. destruct (Ap y Ey) as [Lt|Gt]; [left; apply Z.leb_gt; specialize (Lt mn (proj1 L))|right; apply Z.leb_gt; specialize (Gt mx (proj1 G))]; lia. }
    destruct Nd as (_ & Sh & _). unfold empty. rewrite Sh. apply in_map_iff. exists (pick d). split; [rewrite (Pk1 d d J Hm'), Ps; reflexivity|]. apply in_map_iff. exists d. auto.
Qed.
Lemma kept_head kw l1 p' l2 qs : kept kw (l1 ++ p' :: l2) qs -> effective kw ->
  (forall r, In r l1 -> ~ answers kw r \/ forall q, selected kw r q -> empty q) -> answers kw p' -> (forall q, selected kw p' q -> ~ empty q) ->
  exists q t, qs = q :: t /\ selected kw p' q.
Proof.
  intros K Ef. revert qs K. induction l1 as [|r l1 IH]; intros qs K O An Ne; cbn [app] in K.
  - inversion K as [|? ? ? Na|? q ? ? _ Sq Eq _ _|? q ? t _ Sq _ _]; subst; [contradiction|exfalso; now apply (Ne q)|]. now exists q, t.
  - inversion K as [|? ? ? Na K'|? q ? ? _ Sq Eq _ K'|? q ? t Ar Sq Nq K']; subst.
    + apply IH; auto. intros; apply O; now right.
    + apply IH; auto. intros; apply O; now right.
    + exfalso. destruct (O r (or_introl eq_refl)) as [H|H]; [contradiction|]. apply Nq. split; [now apply H|exact Ef].
Qed.
Lemma row_effective p path version s : storable p -> scannable p -> scan_group path version (fresh p) = Ok s -> row_plain p -> row_fits p p ->
  effective (convert_row (contents_row s)).
Proof.
  intros S Sc E P F. destruct (scan_values p path version s S Sc E P F) as (C & Ec & V & Eq & Sub).
  destruct (row_keywords s C) as (K1 & K2 & K3 & K4). exists "dims"%string, (RVal (AStr (a_dims s))). split; [apply K3; [reflexivity|discriminate]|]. split; [discriminate|].
  intros I. cbn in I. intuition discriminate.
Qed.

Theorem load_described l f path version ss : all_storable l -> replaced l -> (forall n p, saved_last l n p -> scannable p /\ row_plain p) ->
  (forall n m p r, saved_last l n p -> saved_last l m r -> row_fits p r) -> save_all l [] = Ok f -> dasdae_scan path version f = Ok ss ->
  exists ns, names_in_order l ns /\ List.length ss = List.length ns /\
    forall i n s p, znth ns i = Some n -> znth ss i = Some s -> saved_last l n p ->
      (forall j m r, j < i -> znth ns j = Some m -> saved_last l m r -> other_than p r) ->
      exists q, load_row f (contents_row s) = Ok q /\ loaded p q.
Proof.
  intros H R Hp Fi E Es. destruct (scan_read l f path version H R (fun n p X => proj1 (Hp n p X)) E) as (ns & xs & E1 & E2 & N & Fx).
  assert (ss = map (fun x => snd (fst x)) xs) by congruence. subst ss. exists ns. split; [exact N|]. split; [rewrite map_length; symmetry; eapply Forall2_length; exact Fx|].
  intros i n s p Hn Hs Hl Ho.
  assert (Ix : exists x, znth xs i = Some x /\ snd (fst x) = s). { rewrite znth_map in Hs. destruct (znth xs i) as [x|]; [|discriminate]. injection Hs as <-. eauto. }
  destruct Ix as (x & Hx & <-). destruct (znth_split _ _ _ Hx) as (xs1 & xs2 & Ex & Li).
  assert (Each : forall y, In y xs -> exists m, saved_last l m (fst (fst y)) /\ storable (fst (fst y)) /\ scan_group path version (fresh (fst (fst y))) = Ok (snd (fst y)) /\ read_patch (fresh (fst (fst y))) = Ok (snd y)).
  { intros y Iy. clear - Fx Iy. induction Fx as [|m z ms zs Hz Fz IH]; [destruct Iy|]. destruct Iy as [<-|Iy]; [now exists m|now apply IH]. }
  assert (Rb : forall y, In y xs -> same_dpatch (fst (fst y)) (snd y) /\ wf_patch (dp_patch (snd y))).
  { intros y Iy. destruct (Each y Iy) as (m & L & S & _ & Ry). split.
    - apply read_exact; [exact S| |exact Ry]. intros k mc Hk. now apply (rp_labels _ (proj2 (Hp _ _ L)) k mc).
    - destruct (read_fresh _ S) as (y' & Ey & B & _). assert (y' = snd y) by congruence. subst y'. apply (rb_wf _ _ B). }
  assert (Px : fst (fst x) = p).
  { destruct (Forall2_both _ _ _ Fx i x Hx) as (n' & Hn' & Lx & _). assert (n' = n) by congruence. subst n'. eapply saved_unique; [exact Lx|exact Hl]. }
  assert (Ixx : In x xs) by (rewrite Ex; apply in_app_iff; right; now left).
  destruct (Each x Ixx) as (mx & Lx & Sx & Sg & _). rewrite Px in *. destruct (Hp n p Hl) as (Sc & P). assert (F := Fi n n p p Hl Hl).
  destruct (read_kept l f (map snd xs) (convert_row (contents_row (snd (fst x)))) H R E E2) as (qs & Eq & K).
  { intros r' Ir. apply in_map_iff in Ir. destruct Ir as (y & <- & Iy). destruct (Each y Iy) as (m & Ly & Sy & _ & _). destruct (Rb y Iy) as (Dy & _).
    eapply (row_asked p path version _ (fst (fst y))); eauto. now apply (Hp m). }
  rewrite Ex, map_app in K. cbn [map] in K. destruct (Rb x Ixx) as (Dx & Wx). rewrite Px in Dx.
  destruct (kept_head _ _ _ _ _ K) as (q & t & -> & Sq).
  - eapply row_effective; eauto.
  - intros r' Ir. apply in_map_iff in Ir. destruct Ir as (y & <- & Iy). assert (Iy' : In y xs) by (rewrite Ex; apply in_app_iff; now left). destruct (Each y Iy') as (m & Ly & Sy & _ & _). destruct (Rb y Iy') as (Dy & Wy).
    eapply (row_other p path version _ (fst (fst y))); eauto; [now apply (Hp m)|].
    destruct (in_znth _ _ Iy) as (j & Hj). assert (Hj' : znth xs j = Some y). { rewrite Ex, znth_app. pose proof (znth_some _ _ _ Hj). replace (j <? zlen xs1) with true by (symmetry; apply Z.ltb_lt; lia). exact Hj. }
    pose proof (znth_some _ _ _ Hj) as Bj. destruct (Forall2_both _ _ _ Fx j y Hj') as (m' & Hm' & Lm' & _). apply (Ho j m'); [lia|exact Hm'|exact Lm'].
  - eapply row_answers; eauto.
  - intros q Sq. apply (loaded_some p q Sx P). eapply row_selects; eauto.
  - exists q. split; [unfold load_row; now rewrite Eq|eapply row_selects; eauto].
Qed.
End Load.
