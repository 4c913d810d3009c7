(** Reading a file with keywords. *)
From Verif Require Import Base BaseFacts CoordModel CoordSpec NdModel NdSpec NdProofs FrameModel FrameSpec FrameProofs5 ChunkModel CmModel CmSpec CmProofs
  AttrsModel AttrsSpec DasdaeModel DasdaeSpec DasdaeProofs2 DasdaeProofs5 LoadModel LoadSpec LoadProofs LoadProofs2.
From Coq Require Import Strings.String Strings.Ascii.
From Coq Require Import ZifyBool Lia.
Local Open Scope Z_scope.
Local Open Scope list_scope.

Lemma kwargs_empty_spec kw : kwargs_empty kw = false <-> effective kw.
Proof.
  unfold kwargs_empty, effective. rewrite negb_false_iff, existsb_exists.
  assert (M : forall k, mem k non_keys = true <-> In k ["file_version"; "file_format"; "path"; "_modified"]%string) by (intros; apply mem_In').
  split.
  - intros ((k & r) & I & C). unfold counts in C. cbn [fst snd] in C. apply andb_true_iff in C as (C1 & C2). exists k, r. split; [exact I|].
    split; [intros ->; discriminate|]. intros X. apply M in X. rewrite X in C2. discriminate.
  - intros (k & r & I & N & X). exists (k, r). split; [exact I|]. unfold counts. cbn [fst snd]. apply andb_true_iff. split; [destruct r as [[]|]; congruence|].
    apply negb_true_iff. destruct (mem k non_keys) eqn:E; [|reflexivity]. apply M in E. contradiction.
Qed.
Lemma size_zero s : Forall (fun n => 0 <= n) s -> size s = 0 <-> In 0 s.
Proof.
  induction s as [|n s IH]; intros F; [cbn; split; [lia|tauto]|]. inversion F as [|? ? F1 F2]; subst. rewrite size_cons. specialize (IH F2). cbn [In]. rewrite <- IH.
  destruct (Z.eq_dec n 0); destruct (Z.eq_dec (size s) 0); split; intros; try tauto; try nia; lia.
Qed.
Section Whole.
Context {A : Type}.
Implicit Types p q : dpatch A.

Lemma no_data_spec q : wf_patch (dp_patch q) -> no_data q = true <-> empty q.
Proof.
  intros W. unfold no_data, empty. rewrite Z.eqb_eq. apply size_zero. apply (wp_nd _ W).
Qed.
Lemma matches_vals a b kw : a_vals a = a_vals b -> a_dims a = a_dims b -> matches_filters a kw = matches_filters b kw.
Proof.
  intros V D. assert (E : d_vals (dump a) = d_vals (dump b)) by (unfold dump; cbn [d_vals]; now rewrite V, D).
  unfold matches_filters, attr_row. now rewrite E.
Qed.
Lemma group_read g p a kw : storable p -> parts g p a -> can_answer kw p -> can_select kw p ->
  exists qs, read_group kw g = Ok qs /\ forall ps ts, kept kw ps ts -> kept kw (p :: ps) (qs ++ ts).
Proof.
  intros S P C1 C2. unfold read_group. rewrite (pa_attrs _ _ _ P). cbn [bind]. rewrite (matches_vals a (dp_attrs p)) by apply P.
  destruct (matches_spec (dp_attrs p)) with (kw := kw) as (b & E & B); [apply (st_family _ S); now left|exact C1|].
  rewrite E. cbn [bind]. destruct b; cbn [negb].
  - destruct (select_read g p a kw S P C2) as (q & Eq & Sq). rewrite Eq. cbn [bind]. eexists. split; [reflexivity|]. intros ps ts K.
    assert (An : answers kw p) by exact (proj1 B eq_refl). assert (Wq : wf_patch (dp_patch q)) by (destruct Sq as (? & ? & ? & ? & _ & _ & (W & _) & _); exact W).
    destruct (no_data q && negb (kwargs_empty kw)) eqn:N; cbn [app].
    + apply andb_true_iff in N as (N1 & N2). apply negb_true_iff in N2. apply kwargs_empty_spec in N2. apply no_data_spec in N1; [|exact Wq]. now apply (kept_empty kw p q).
    + apply (kept_some kw p q); auto. intros (N1 & N2). apply no_data_spec in N1; [|exact Wq]. apply kwargs_empty_spec in N2. rewrite N1, N2 in N. discriminate.
  - exists []. split; [reflexivity|]. intros ps ts K. apply kept_other; [|exact K]. intros An. discriminate (proj2 B An).
Qed.

Theorem read_kept l f ps kw : all_storable l -> replaced l -> save_all l [] = Ok f -> dasdae_read f = Ok ps ->
  (forall p, In p ps -> can_answer kw p /\ can_select kw p) ->
  exists qs, dasdae_read_kw f kw = Ok qs /\ kept kw ps qs.
Proof.
  intros H R E Er C. destruct (save_all_holds l H) as (f' & E' & Hf). assert (f' = f) by congruence. subst f'.
  unfold dasdae_read_kw. unfold dasdae_read in Er.
  assert (G : forall ns ps, map_result (fun name => match assoc name f with Some g => read_patch g | None => Err KeyError end) ns = Ok ps ->
     (forall p, In p ps -> can_answer kw p /\ can_select kw p) ->
     exists ls, map_result (fun name => match assoc name f with Some g => read_group kw g | None => Err KeyError end) ns = Ok ls /\ kept kw ps (List.concat ls)).
  { induction ns as [|n ns IH]; intros ps0 Q C0; cbn [map_result] in *.
    - injection Q as <-. exists []. split; [reflexivity|constructor].
    - destruct (assoc n f) as [g|] eqn:Eg; cbn [bind] in Q; [|discriminate].
      destruct (holds_fresh l f n g H R Hf Eg) as (p0 & _ & S0 & Gq). destruct (parts_of g p0 S0 Gq) as (p & a & Ep & Sp & Pp).
      rewrite Ep in Q. cbn [bind] in Q. destruct (map_result _ ns) as [ps1|] eqn:Q1; cbn [bind] in Q; [|discriminate]. injection Q as <-.
      destruct (IH ps1 eq_refl) as (ls & El & K); [intros x I; apply C0; now right|]. destruct (C0 p (or_introl eq_refl)) as (C1 & C2).
      destruct (group_read g p a kw Sp Pp C1 C2) as (qs & Eq & Kq). rewrite Eq. cbn [bind]. rewrite El. cbn [bind]. exists (qs :: ls). split; [reflexivity|]. cbn [List.concat]. now apply Kq. }
  destruct (G _ _ Er C) as (ls & El & K). rewrite El. cbn [bind]. eauto.
Qed.

(** No keywords. *)
Theorem read_plain f : dasdae_read_kw f [] = dasdae_read (A := A) f.
Proof.
  unfold dasdae_read_kw, dasdae_read.
  assert (Gr : forall g : group A, read_group [] g = do p <- read_patch g; Ok [p]).
  { intros g. unfold read_group, read_patch. destruct (get_attrs g) as [a|]; cbn [bind]; [|reflexivity]. unfold matches_filters. cbn [filter bind negb].
    unfold read_patch_kw. destruct (get_dims g) as [d|]; cbn [bind]; [|reflexivity]. destruct (get_coords g d a) as [(cm & us)|]; cbn [bind]; [|reflexivity].
    destruct (g_data g); [|reflexivity]. destruct (make_patch cm us n a) as [p|]; cbn [bind]; [|reflexivity]. unfold kwargs_empty. cbn [existsb negb]. now rewrite andb_false_r. }
  generalize (sort_strs (map fst f)) as ns. induction ns as [|n ns IH]; [reflexivity|]. cbn [map_result].
  destruct (assoc n f) as [g|]; cbn [bind]; [|reflexivity]. rewrite Gr. destruct (read_patch g) as [p|]; cbn [bind]; [|reflexivity]. revert IH.
  destruct (map_result _ ns) as [ls|e] eqn:E1; destruct (map_result (fun name => match assoc name f with Some g => read_patch g | None => Err KeyError end) ns) as [qs|e']; cbn [bind]; intros IH; try discriminate.
  - injection IH as IH. cbn [List.concat app]. now rewrite IH.
  - congruence.
Qed.
(** Keywords that are None, or that spools pass along: every patch is read. *)
Theorem read_none l f ps kw : all_storable l -> replaced l -> save_all l [] = Ok f -> dasdae_read f = Ok ps ->
  NoDup (map fst kw) ->
  (forall k r, In (k, r) kw -> r = RVal ANone \/ In k ["file_version"; "file_format"; "path"; "_modified"]%string) ->
  (forall p, In p ps -> plain_names (dp_cm p) /\
     (forall n m d, In n (map fst kw) -> In m (map fst kw) -> ranges_over p n d -> ranges_over p m d -> n = m) /\
     forall k d, In k ["file_version"; "file_format"; "path"; "_modified"]%string -> ~ ranges_over p k d) ->
  exists qs, dasdae_read_kw f kw = Ok qs /\ Forall2 (selected kw) ps qs.
Proof.
  intros H R E Er N Kw Hp. destruct (read_kept l f ps kw H R E Er) as (qs & Eq & K).
  { intros p I. destruct (Hp p I) as (Pl & On & Nk). split.
    - intros k r Ik Nf. exfalso. apply Nf. unfold not_filter. destruct (Kw k r Ik); auto.
    - constructor; auto. intros n r d c Ik D Ec. destruct (Kw n r Ik) as [-> |X]; [eexists; cbn [range_of]; reflexivity|]. now apply (Nk n d) in X. }
  exists qs. split; [exact Eq|]. assert (Ne : ~ effective kw) by (intros (k & r & Ik & N1 & N2); destruct (Kw k r Ik); contradiction).
  assert (An : forall p, answers kw p) by (intros p k r Ik Nf; exfalso; apply Nf; unfold not_filter; destruct (Kw k r Ik); auto).
  clear - K Ne An. induction K as [|p ps qs Na K IH|p q ps qs A1 S1 E1 Ef K IH|p q ps qs A1 S1 N1 K IH]; [constructor|now elim Na|contradiction|constructor; auto].
Qed.
End Whole.
