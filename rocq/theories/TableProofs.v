(** Proofs for patches and dataframes (C96). *)
From Verif Require Import Base BaseFacts CoordModel CoordSpec CoordProofs CoordProofs2 CoordProofs3 NdModel NdSpec NdProofs FrameModel FrameProofs5 ChunkModel CmModel CmSpec CmProofs CmProofs2 CmProofs3
  InterpModel InterpProofs2 TableModel TableSpec.
From Coq Require Import Strings.String Lia.
Local Open Scope Z_scope.
Local Open Scope list_scope.

Definition two_cm (a b : string) (ca cb : coord) : cman := mkCm [a; b] [(a, M1 ca); (b, M1 cb)] [(a, [a]); (b, [b])].
Lemma two_wf a b ca cb : a <> b -> wf_coord ca -> wf_coord cb -> wf_cm (two_cm a b ca cb).
Proof.
  intros N Wa Wb. assert (Na : String.eqb a b = false) by (apply String.eqb_neq; exact N). assert (Nb : String.eqb b a = false) by (apply String.eqb_neq; congruence).
  split; cbn -[String.eqb].
  - split; cbn -[String.eqb].
    + intros d [<-|[<-|[]]]; rewrite ?String.eqb_refl, ?Nb; split; eauto.
    + intros n ds. destruct (String.eqb_spec n a) as [->|Ha]; [|destruct (String.eqb_spec n b) as [->|Hb]; [|discriminate]]; intros [= <-].
      * exists (M1 ca). split; [reflexivity|]. split; [intros d [<-|[]]; auto|]. right. constructor; [|constructor]. exists ca. cbn. rewrite String.eqb_refl. auto.
      * exists (M1 cb). split; [reflexivity|]. split; [intros d [<-|[]]; auto|]. right. constructor; [|constructor]. exists cb. cbn. rewrite String.eqb_refl, Nb. auto.
  - repeat constructor; cbn; intuition congruence.
  - repeat constructor; cbn; intuition congruence.
  - repeat constructor; cbn; intuition congruence.
  - intros n H; exact H.
  - intros n ds. destruct (String.eqb_spec n a); [|destruct (String.eqb_spec n b); [|discriminate]]; intros [= <-]; repeat constructor; cbn; tauto.
  - intros n m. destruct (String.eqb_spec n a); [|destruct (String.eqb_spec n b); [|discriminate]]; intros [= <-]; assumption.
Qed.
Lemma two_get a b k v k' v' ca cb shape : a <> b -> get_coord_data k v = Ok ca -> get_coord_data k' v' = Ok cb ->
  get_cm [(a, KSimple (VArr k v)); (b, KSimple (VArr k' v'))] (Some [a; b]) shape = Ok (two_cm a b ca cb).
Proof.
  intros N Ea Eb. assert (Na : String.eqb a b = false) by (apply String.eqb_neq; exact N). assert (Nb : String.eqb b a = false) by (apply String.eqb_neq; congruence).
  unfold get_cm, coord_dim_map. cbn -[String.eqb get_coord_data]. unfold coord_item. cbn -[String.eqb get_coord_data]. rewrite !String.eqb_refl, Nb. cbn -[String.eqb get_coord_data].
  rewrite Ea. cbn -[String.eqb get_coord_data]. rewrite Eb. cbn -[String.eqb get_coord_data]. rewrite ?String.eqb_refl, ?Nb, ?Na. cbn -[String.eqb get_coord_data]. rewrite ?String.eqb_refl, ?Nb, ?Na. cbn -[String.eqb get_coord_data]. rewrite ?String.eqb_refl, ?Nb, ?Na.
  assert (B : build_cm [a; b] [(a, M1 ca); (b, M1 cb)] [(a, [a]); (b, [b])] = Ok (two_cm a b ca cb)).
  { unfold build_cm, check_coord, check_dim, expected_shape. cbn -[String.eqb]. repeat (rewrite ?String.eqb_refl, ?Nb, ?Na; cbn -[String.eqb]). rewrite !Z.eqb_refl. cbn -[String.eqb]. reflexivity. }
  destruct shape; exact B.
Qed.
Lemma kind_again k v c : get_coord_data k v = Ok c -> v <> [] -> concrete c /\ kind_of c = Some k.
Proof.
  intros E N. pose proof (get_coord_cases k v) as H. destruct v as [|x0 [|x1 t]]; [contradiction| |].
  - rewrite E in H. injection H as ->. split; [exact I|reflexivity].
  - destruct H as [[_ F]|[[_ [F _]]|(_ & _ & s & _ & _ & _ & F)]]; rewrite E in F; injection F as ->; split; try exact I; reflexivity.
Qed.
Lemma name_ok s : s <> EmptyString -> no_name (Some s) = false.
Proof. intros H. cbn. apply String.eqb_neq, H. Qed.

Lemma made {A} (t : table A) a b rows cols : a <> b -> wf_nd (tb_data t) -> nd_shape (tb_data t) = [zlen (snd rows); zlen (snd cols)] ->
  exists q, (do cm <- get_cm [(a, KSimple (VArr (fst rows) (snd rows))); (b, KSimple (VArr (fst cols) (snd cols)))] (Some [a; b]) (Some (nd_shape (tb_data t))); new_patch cm (tb_data t)) = Ok q /\
    wf_patch q /\ cm_dims (p_cm q) = [a; b] /\ map fst (cm_coords (p_cm q)) = [a; b] /\ p_data q = tb_data t /\ has_labels_about (p_cm q) a rows /\ has_labels_about (p_cm q) b cols.
Proof.
  intros N W S. destruct (get_coord_represents (fst rows) (snd rows)) as (ca & Ea & Ra & Wa). destruct (get_coord_represents (fst cols) (snd cols)) as (cb & Eb & Rb & Wb).
  rewrite (two_get _ _ _ _ _ _ ca cb _ N Ea Eb). cbn [bind]. assert (Nb : String.eqb b a = false) by (apply String.eqb_neq; congruence).
  destruct (new_patch_ok (two_cm a b ca cb) (tb_data t) (two_wf _ _ _ _ N Wa Wb) W) as [E Wq]; [discriminate| |].
  { rewrite S. cbn [cm_dims two_cm]. constructor; [|constructor; [|constructor]].
    - exists ca. cbn. rewrite String.eqb_refl. split; [reflexivity|apply rep_len; assumption].
    - exists cb. cbn. rewrite Nb, String.eqb_refl. split; [reflexivity|apply rep_len; assumption]. }
  rewrite E. eexists. split; [reflexivity|]. split; [exact Wq|]. split; [reflexivity|]. split; [reflexivity|]. split; [reflexivity|]. split.
  - exists ca. cbn. rewrite String.eqb_refl. split; [reflexivity|]. split; [exact Ra|]. eapply kind_again, Ea.
  - exists cb. cbn. rewrite Nb, String.eqb_refl. split; [reflexivity|]. split; [exact Rb|]. eapply kind_again, Eb.
Qed.
Theorem of_table_ok {A} (t : table A) a b : proper t a b -> exists q, of_table t None = Ok q /\ wf_patch q /\
  cm_dims (p_cm q) = [a; b] /\ map fst (cm_coords (p_cm q)) = [a; b] /\ p_data q = tb_data t /\ has_labels_about (p_cm q) a (tb_rows t) /\ has_labels_about (p_cm q) b (tb_cols t).
Proof.
  intros (Ei & Ec & N & Na & Nb & W & S). destruct (made t a b (tb_rows t) (tb_cols t) N W S) as (q & E & H). exists q. split; [|exact H].
  unfold of_table, table_names. rewrite Ei, Ec. cbn [fst snd]. rewrite (name_ok _ Na), (name_ok _ Nb). cbn [orb bind fst snd]. rewrite (proj2 (String.eqb_neq a b) N). exact E.
Qed.
Lemma no_names {A} (t : table A) : unnamed t -> no_name (tb_index t) = true \/ no_name (tb_columns t) = true.
Proof. intros [[-> | ->]|[-> | ->]]; auto. Qed.
Theorem named_by_attrs {A} (t : table A) a b : unnamed t -> a <> b -> a <> EmptyString -> b <> EmptyString ->
  of_table t (Some (Some (a, b))) = of_table (mkTable (Some a) (tb_rows t) (Some b) (tb_cols t) (tb_data t)) None.
Proof.
  intros U N Na Nb. pose proof (no_names t U) as H. unfold of_table, table_names. cbn [fst snd tb_index tb_columns tb_rows tb_cols tb_data].
  replace (no_name (tb_index t) || no_name (tb_columns t))%bool with true by (destruct H as [-> | ->]; [reflexivity|rewrite orb_true_r; reflexivity]). cbn [fst snd].
  rewrite (name_ok _ Na), (name_ok _ Nb). cbn [orb bind fst snd]. rewrite (proj2 (String.eqb_neq a b) N), !String.eqb_refl. reflexivity.
Qed.
Lemma labels_ok cm d l : has_labels cm d l -> labels_of cm d = Ok l.
Proof.
  intros (c & C & CC & K & V). unfold labels_of. rewrite C, K. destruct l as [k v]. cbn in *. f_equal. f_equal. revert V CC. clear. destruct c; cbn; intros V CC; try (now destruct CC); apply map_Some_inj in V; exact V.
Qed.
Theorem to_table_ok {A} (p : patch A) a b rows cols : wf_patch p -> cm_dims (p_cm p) = [a; b] -> has_labels (p_cm p) a rows -> has_labels (p_cm p) b cols ->
  to_table p = Ok (mkTable (Some a) rows (Some b) cols (p_data p)) /\ (a <> EmptyString -> b <> EmptyString -> proper (mkTable (Some a) rows (Some b) cols (p_data p)) a b).
Proof.
  intros W D Ha Hb. split; [unfold to_table; rewrite D, (labels_ok _ _ _ Ha), (labels_ok _ _ _ Hb); reflexivity|]. intros Na Nb.
  pose proof (wf_dims _ (wp_cm _ W)) as ND. rewrite D in ND. inversion ND as [|? ? NI _]; subst. split; [reflexivity|]. split; [reflexivity|]. split; [intros ->; apply NI; cbn; auto|]. split; [exact Na|]. split; [exact Nb|]. split; [apply (wp_nd _ W)|].
  pose proof (wp_shape _ W) as F. rewrite D in F. cbn [tb_data tb_rows tb_cols].
  assert (LEN : forall d l n, has_labels (p_cm p) d l -> dim_len (p_cm p) d n -> n = zlen (snd l)).
  { intros d l n (c & C & CC & _ & V) (c' & C' & L). rewrite C in C'. injection C' as <-. rewrite <- L, <- (c_len_values c), V by (apply wf_okc; eapply (wf_vals _ (wp_cm _ W) d (M1 c)), C). apply zlen_map. }
  inversion F as [|? n ? s A1 F1]; subst. inversion F1 as [|? m ? s' A2 F2]; subst. inversion F2; subst. rewrite (LEN _ _ _ Ha A1), (LEN _ _ _ Hb A2). reflexivity.
Qed.
Theorem round_trip {A} (p : patch A) a b rows cols : wf_patch p -> cm_dims (p_cm p) = [a; b] -> has_labels (p_cm p) a rows -> has_labels (p_cm p) b cols -> a <> EmptyString -> b <> EmptyString ->
  exists t q, to_table p = Ok t /\ of_table t None = Ok q /\ wf_patch q /\ cm_dims (p_cm q) = cm_dims (p_cm p) /\ map fst (cm_coords (p_cm q)) = cm_dims (p_cm p) /\ p_data q = p_data p /\
    has_labels_about (p_cm q) a rows /\ has_labels_about (p_cm q) b cols.
Proof.
  intros W D Ha Hb Na Nb. destruct (to_table_ok p a b rows cols W D Ha Hb) as [E P]. specialize (P Na Nb). destruct (of_table_ok _ _ _ P) as (q & Eq & Wq & Dq & Kq & Pq & Lq & Mq).
  eexists _, q. split; [exact E|]. split; [exact Eq|]. rewrite D. auto 10.
Qed.
Lemma about_exact cm d l : has_labels_about cm d l -> spread (snd l) -> snd l <> [] -> has_labels cm d l.
Proof. intros (c & C & (_ & _ & R) & K) S N. destruct (K N) as [CC Kc]. exists c. split; [exact C|]. split; [exact CC|]. split; [exact Kc|apply R, S]. Qed.
Theorem table_trip {A} (t : table A) a b : proper t a b -> spread (snd (tb_rows t)) -> spread (snd (tb_cols t)) -> snd (tb_rows t) <> [] -> snd (tb_cols t) <> [] ->
  exists q, of_table t None = Ok q /\ to_table q = Ok t.
Proof.
  intros P S S' N N'. destruct (of_table_ok t a b P) as (q & E & W & D & _ & Pd & La & Lb). exists q. split; [exact E|].
  destruct (to_table_ok q a b (tb_rows t) (tb_cols t) W D (about_exact _ _ _ La S N) (about_exact _ _ _ Lb S' N')) as [F _]. rewrite F, Pd. destruct P as (Ei & Ec & _). rewrite <- Ei, <- Ec. destruct t; reflexivity.
Qed.
Theorem not_two {A} (p : patch A) : zlen (cm_dims (p_cm p)) <> 2 -> to_table p = Err AssertionError.
Proof.
  intros H. unfold to_table. destruct (cm_dims (p_cm p)) as [|a [|b [|c r]]]; try reflexivity. exfalso. apply H. reflexivity.
Qed.
Theorem nameless {A} (t : table A) attrs : unnamed t -> attrs = None \/ attrs = Some None -> of_table t attrs = Err ValueError.
Proof.
  intros U K. pose proof (no_names t U) as H. unfold of_table, table_names. cbn [fst snd].
  replace (no_name (tb_index t) || no_name (tb_columns t))%bool with true by (destruct H as [-> | ->]; [reflexivity|rewrite orb_true_r; reflexivity]).
  destruct K as [-> | ->]; cbn [fst snd]; [|reflexivity]. destruct H as [-> | ->]; [reflexivity|rewrite orb_true_r; reflexivity].
Qed.
