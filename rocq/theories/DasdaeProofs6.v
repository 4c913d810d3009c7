(** DASDAE files: the names given to patches. *)
From Verif Require Import Base BaseFacts CoordModel NdModel FrameModel FrameProofs FrameProofs5 ChunkModel CmModel CmSpec CmProofs CmProofs5
  AttrsModel AttrsSpec AttrsProofs AttrsProofs2 AttrsProofs9 DasdaeModel DasdaeSpec DasdaeProofs.
From Coq Require Import Strings.String Strings.Ascii.
From Coq Require Import ZifyBool Lia.
Local Open Scope Z_scope.
Local Open Scope list_scope.

(** ** Strings *)
Lemma us_last n : forall m f g, ~ contains "_" f -> ~ contains "_" g -> (n ++ "_" ++ f = m ++ "_" ++ g)%string -> n = m /\ f = g.
Proof.
  induction n as [|c n IH]; intros [|d m] f g F G E; cbn in E.
  - injection E as ->. auto.
  - exfalso. injection E as <- E. apply F. exists m, g. exact E.
  - exfalso. injection E as -> E. apply G. exists n, f. now rewrite <- E.
  - injection E as <- E. destruct (IH m f g F G E) as (-> & ->). auto.
Qed.
Lemma app_str_assoc (a b c : string) : ((a ++ b) ++ c = a ++ b ++ c)%string.
Proof. induction a; cbn; congruence. Qed.
(** The first separator after clean text. *)
Lemma clean_head x : forall y r s, clean x -> clean y -> (x ++ "__" ++ r = y ++ "__" ++ s)%string -> x = y /\ r = s.
Proof.
  assert (Step : forall c x, clean (String c x) -> clean x).
  { intros c0 x0 (C1 & C2). split.
    - intros (a & b & ->). apply C1. exists (String c0 a), b. reflexivity.
    - intros a ->. apply (C2 (String c0 a)). reflexivity. }
  assert (Z0 : forall y r s, clean y -> ("__" ++ r = y ++ "__" ++ s)%string -> y = EmptyString /\ r = s).
  { intros [|c [|d y]] r s (C1 & C2) E; cbn in E.
    - injection E as ->. auto.
    - exfalso. injection E as <- E. apply (C2 EmptyString). reflexivity.
    - exfalso. injection E as <- <- E. apply C1. exists EmptyString, y. reflexivity. }
  induction x as [|c x IH]; intros y r s Cx Cy E.
  - destruct (Z0 y r s Cy E) as (-> & ->). auto.
  - destruct y as [|d y].
    + symmetry in E. destruct (Z0 (String c x) s r Cx E) as (Q & _). discriminate.
    + cbn [append] in E. injection E as <- E. destruct (IH y r s (Step _ _ Cx) (Step _ _ Cy) E) as (-> & ->). auto.
Qed.
Lemma join_cons sep x l : l <> [] -> str_join sep (x :: l) = (x ++ sep ++ str_join sep l)%string.
Proof. destruct l; [contradiction|reflexivity]. Qed.

(** *** Times *)
Definition tr (c : ascii) : ascii := if Ascii.eqb c ":" then "_"%char else if Ascii.eqb c "-" then "_"%char else if Ascii.eqb c " " then "T"%char else c.
Fixpoint smap (f : ascii -> ascii) (s : string) : string := match s with EmptyString => EmptyString | String c s => String (f c) (smap f s) end.
Lemma replace_char c d s : str_replace (String c EmptyString) (String d EmptyString) s = smap (fun x => if Ascii.eqb x c then d else x) s.
Proof.
  unfold str_replace. induction s as [|x s IH]; [reflexivity|]. cbn [replace_from str_prefix smap String.length append]. rewrite andb_true_r, (Ascii.eqb_sym c x).
  change (1 - 1)%nat with 0%nat. rewrite IH. now destruct (Ascii.eqb x c).
Qed.
Lemma smap_smap f g s : smap f (smap g s) = smap (fun x => f (g x)) s.
Proof. induction s as [|x s IH]; cbn; [reflexivity|]. now rewrite IH. Qed.
Lemma smap_ext f g s : (forall x, f x = g x) -> smap f s = smap g s.
Proof. intros E. induction s as [|x s IH]; cbn; [reflexivity|]. now rewrite E, IH. Qed.
Lemma split_hd c t r : (forall a b, t <> (a ++ String c b)%string) -> r = EmptyString \/ (exists r', r = String c r') -> hd EmptyString (str_split c (t ++ r)) = t.
Proof.
  intros N R. induction t as [|x t IH].
  - cbn [append]. destruct R as [-> |(r' & ->)]; [reflexivity|]. cbn [str_split]. rewrite Ascii.eqb_refl. reflexivity.
  - cbn [append str_split]. destruct (Ascii.eqb_spec x c) as [->|Nx]; [exfalso; now apply (N EmptyString t)|].
    assert (IH' : hd EmptyString (str_split c (t ++ r)) = t) by (apply IH; intros a b ->; now apply (N (String x a) b)).
    destruct (str_split c (t ++ r)); cbn [hd] in *; congruence.
Qed.
Lemma fits_len pat : forall s, fits pat s = true -> String.length s = String.length pat.
Proof.
  induction pat as [|x pat IH]; intros [|c s]; cbn [fits]; try discriminate; auto. rewrite andb_true_iff. intros (_ & H). cbn [String.length]. now rewrite (IH s H).
Qed.
Lemma fits_no pat bad : (forall c, digit c = true -> c <> bad) -> (forall a b, pat <> (a ++ String bad b)%string) -> forall s, fits pat s = true -> forall a b, s <> (a ++ String bad b)%string.
Proof.
  intros D. induction pat as [|x pat IH]; intros N [|c s] F a b E; cbn [fits] in F; try discriminate.
  - now destruct a.
  - apply andb_true_iff in F as (F1 & F2). destruct a as [|d a]; cbn in E; injection E as -> E.
    + destruct (Ascii.eqb_spec x "0") as [->|Nx]; [now elim (D bad F1)|]. apply Ascii.eqb_eq in F1. subst x. now apply (N EmptyString pat).
    + apply (IH ltac:(intros a' b' ->; now apply (N (String x a') b')) s F2 a b E).
Qed.
Lemma digit_not c bad : digit c = true -> digit bad = false -> c <> bad.
Proof. intros D N ->. congruence. Qed.
Lemma digit_tr c : digit c = true -> tr c = c.
Proof.
  intros D. unfold tr. destruct (Ascii.eqb_spec c ":") as [->|]; [discriminate D|]. destruct (Ascii.eqb_spec c "-") as [->|]; [discriminate D|]. destruct (Ascii.eqb_spec c " ") as [->|]; [discriminate D|reflexivity].
Qed.
Lemma fits_map pat : forall s, fits pat s = true -> fits (smap tr pat) (smap tr s) = true.
Proof.
  induction pat as [|x pat IH]; intros [|c s]; cbn [fits smap]; try discriminate; auto. rewrite !andb_true_iff. intros (F1 & F2). split; [|now apply IH].
  destruct (Ascii.eqb_spec x "0") as [->|Nx].
  - change (tr "0") with "0"%char. change (Ascii.eqb "0" "0") with true. cbv iota. rewrite digit_tr by exact F1. exact F1.
  - apply Ascii.eqb_eq in F1. subst c. destruct (Ascii.eqb_spec (tr x) "0") as [Q|_]; [|apply Ascii.eqb_refl]. exfalso. revert Q. unfold tr.
    destruct (Ascii.eqb x ":"); [discriminate|]. destruct (Ascii.eqb x "-"); [discriminate|]. destruct (Ascii.eqb x " "); [discriminate|]. exact Nx.
Qed.
Lemma fits_inj pat : forall s s', fits pat s = true -> fits pat s' = true -> smap tr s = smap tr s' -> s = s'.
Proof.
  induction pat as [|x pat IH]; intros [|c s] [|c' s']; cbn [fits smap]; try discriminate; auto. rewrite !andb_true_iff. intros (F1 & F2) (G1 & G2) E. injection E as E1 E2.
  rewrite (IH s s' F2 G2 E2). f_equal. destruct (Ascii.eqb x "0"); [rewrite !digit_tr in E1 by assumption; exact E1|]. apply Ascii.eqb_eq in F1, G1. congruence.
Qed.
Lemma smap_len f s : String.length (smap f s) = String.length s.
Proof. induction s; cbn; congruence. Qed.
Lemma stamp_inj s s' : stamp s -> stamp s' -> smap tr s = smap tr s' -> s = s'.
Proof.
  intros S S' E. assert (L : String.length s = String.length s') by (rewrite <- (smap_len tr s), <- (smap_len tr s'); now rewrite E).
  destruct S as [S|S], S' as [S'|S']; [now apply (fits_inj _ s s' S S')| | |now apply (fits_inj _ s s' S S')]; apply fits_len in S, S'; rewrite S, S' in L; discriminate.
Qed.
Lemma fits_us pat : forall s, fits pat s = true -> contains "__" s -> contains "__" pat.
Proof.
  assert (U : forall c, digit c = true -> c <> "_"%char) by (intros c D; now apply digit_not).
  induction pat as [|x pat IH]; intros [|c s] F (a & b & E); cbn [fits] in F; try discriminate.
  - now destruct a.
  - apply andb_true_iff in F as (F1 & F2). destruct a as [|d a]; cbn in E; injection E as -> E.
    + destruct s as [|c2 s]; [discriminate|]. injection E as -> ->. destruct pat as [|y pat]; [discriminate|]. cbn [fits] in F2. apply andb_true_iff in F2 as (G1 & _).
      destruct (Ascii.eqb_spec x "0"); [now elim (U _ F1)|]. destruct (Ascii.eqb_spec y "0"); [now elim (U _ G1)|]. apply Ascii.eqb_eq in F1, G1. subst. exists EmptyString, pat. reflexivity.
    + destruct (IH s F2) as (a' & b' & ->); [exists a, b; exact E|]. exists (String x a'), b'. reflexivity.
Qed.
Lemma fits_end pat : forall s, fits pat s = true -> forall a, s = (a ++ "_")%string -> exists a', pat = (a' ++ "_")%string.
Proof.
  assert (U : forall c, digit c = true -> c <> "_"%char) by (intros c D; now apply digit_not).
  induction pat as [|x pat IH]; intros [|c s] F a E; cbn [fits] in F; try discriminate.
  - now destruct a.
  - apply andb_true_iff in F as (F1 & F2). destruct a as [|d a]; cbn in E; injection E as -> E.
    + subst s. destruct pat; [|discriminate]. destruct (Ascii.eqb_spec x "0"); [now elim (U _ F1)|]. apply Ascii.eqb_eq in F1. subst. exists EmptyString. reflexivity.
    + destruct (IH s F2 a E) as (a' & ->). exists (String x a'). reflexivity.
Qed.
Lemma last_app_us (a : string) : forall s, s = (a ++ "_")%string -> last (list_ascii_of_string s) "x"%char = "_"%char.
Proof.
  intros s ->. induction a as [|c a IH]; [reflexivity|]. cbn [append list_ascii_of_string]. destruct (list_ascii_of_string (a ++ "_")) eqn:E; [|cbn [last] in *; exact IH]. discriminate.
Qed.
Lemma stamp_clean s : stamp s -> clean (smap tr s).
Proof.
  intros H. assert (G : forall pat, str_contains "__" (smap tr pat) = false -> last (list_ascii_of_string (smap tr pat)) "x"%char <> "_"%char -> fits pat s = true -> clean (smap tr s)).
  { intros pat C1 C2 F. apply fits_map in F. split.
    - intros C. apply (fits_us _ _ F), str_contains_spec in C. congruence.
    - intros a E. destruct (fits_end _ _ F a E) as (a' & Q). apply C2. now apply (last_app_us a'). }
  destruct H as [H|H]; (apply (G _) with (3 := H); [reflexivity|discriminate]).
Qed.
Lemma format_shown s t : shown_as s t -> format_time s = smap tr t.
Proof.
  intros (St & Sh). unfold format_time.
  assert (N : forall a b, t <> (a ++ String "." b)%string).
  { destruct St as [St|St]; (apply (fits_no _ "."%char) with (3 := St); [intros c D; now apply digit_not|]); intros a b E.
    - assert (C : contains "." "0000-00-00 00:00:00") by (exists a, b; exact E). apply str_contains_spec in C. discriminate.
    - assert (C : contains "." "0000-00-00") by (exists a, b; exact E). apply str_contains_spec in C. discriminate. }
  assert (hd EmptyString (str_split "." s) = t) as ->.
  { destruct Sh as [-> |(r & ->)].
    - rewrite str_split_single; [reflexivity|exact N].
    - apply split_hd; [exact N|right; exists r; reflexivity]. }
  rewrite !replace_char, !smap_smap. apply smap_ext. intros x. unfold tr. destruct (Ascii.eqb_spec x ":") as [->|N1]; [reflexivity|]. destruct (Ascii.eqb_spec x "-") as [->|N2]; reflexivity.
Qed.

(** ** The rows of patches in memory *)
Definition put_coord (v : sdict) (e : string * summ) : sdict :=
  assoc_set (fst e ++ "_step")%string (null_step (snd e)) (fold_left (fun v f => assoc_set (fst e ++ "_" ++ fst f)%string (snd f) v) (summ_dict (snd e)) v).
Lemma put_coord_other k v n s : (forall f, In f flat_fields -> k <> (n ++ "_" ++ f)%string) -> assoc k (put_coord v (n, s)) = assoc k v.
Proof.
  intros N. unfold put_coord, summ_dict. cbn [fst snd fold_left]. rewrite assoc_set_other by (apply (N "step"%string); cbn; tauto).
  rewrite !assoc_set_other; [reflexivity| | | | |]; apply N; cbn; tauto.
Qed.
Lemma put_coord_lims v n s : assoc (n ++ "_min")%string (put_coord v (n, s)) = Some (s_min s) /\ assoc (n ++ "_max")%string (put_coord v (n, s)) = Some (s_max s).
Proof.
  assert (D : forall f g : string, f <> g -> (n ++ f)%string <> (n ++ g)%string) by (intros f g N E; now apply N, (prefix_inj n)).
  unfold put_coord, summ_dict. cbn [fst snd fold_left append]. split.
  - rewrite !(assoc_set_other) by (apply (D "_min"%string); discriminate). change (n ++ String "_" "min")%string with (n ++ "_min")%string. now rewrite assoc_set_same.
  - rewrite !(assoc_set_other) by (apply (D "_max"%string); discriminate). change (n ++ String "_" "max")%string with (n ++ "_max")%string. now rewrite assoc_set_same.
Qed.
Lemma flat_fold k l : (forall n f, In n (map fst l) -> In f flat_fields -> k <> (n ++ "_" ++ f)%string) -> forall v, assoc k (fold_left put_coord l v) = assoc k v.
Proof.
  induction l as [|(n & s) l IH]; intros N v; [reflexivity|]. cbn [fold_left]. rewrite IH by (intros m f M F; apply N; [now right|exact F]).
  apply put_coord_other. intros f F. apply N; [now left|exact F].
Qed.
Lemma field_plain f : In f flat_fields -> ~ contains "_" f.
Proof. intros F C. apply str_contains_spec in C. destruct F as [<-|[<-|[<-|[<-|[<-|[]]]]]]; discriminate. Qed.
Lemma flat_word a k : ~ contains "_" k -> assoc k (flat_dump a) = assoc k (d_vals (dump a)).
Proof. intros N. apply flat_fold. intros n f _ _ ->. apply N. exists n, f. reflexivity. Qed.
Lemma flat_lims a n s : NoDup (map fst (a_coords a)) -> assoc n (a_coords a) = Some s ->
  assoc (n ++ "_min")%string (flat_dump a) = Some (s_min s) /\ assoc (n ++ "_max")%string (flat_dump a) = Some (s_max s).
Proof.
  intros ND E. apply assoc_in in E. apply in_split in E. destruct E as (l1 & l2 & E). change (flat_dump a) with (fold_left put_coord (a_coords a) (d_vals (dump a))).
  rewrite E in *. rewrite fold_left_app. cbn [fold_left]. rewrite map_app in ND. cbn [map fst] in ND. apply NoDup_remove_2 in ND.
  assert (G : forall g, In g flat_fields -> forall v, assoc (n ++ "_" ++ g)%string (fold_left put_coord l2 v) = assoc (n ++ "_" ++ g)%string v).
  { intros g Gg v. apply flat_fold. intros m f M F Q. apply us_last in Q; [|now apply field_plain|now apply field_plain]. destruct Q as (-> & _). apply ND. apply in_app_iff. now right. }
  change (n ++ "_min")%string with (n ++ "_" ++ "min")%string. change (n ++ "_max")%string with (n ++ "_" ++ "max")%string.
  rewrite !G by (cbn; tauto). apply put_coord_lims.
Qed.
Lemma dump_vals a k : k <> "dims"%string -> assoc k (d_vals (dump a)) = value_of a k.
Proof.
  intros N. rewrite value_assoc, <- default_of_spec. unfold dump. cbn [d_vals].
  rewrite !assoc_app. rewrite (assoc_map (fun e => match assoc (fst e) (a_vals a) with Some v => v | None => snd e end)). cbn [fst snd].
  destruct (assoc k field_defaults) as [d|] eqn:E; [now destruct (assoc k (a_vals a))|].
  rewrite (assoc_filter (fun j => negb (has_key j field_defaults))). assert (has_key k field_defaults = false) as -> by (apply has_key_false; now apply assoc_None).
  cbn [negb]. destruct (assoc k (a_vals a)); [reflexivity|]. cbn [assoc]. destruct (String.eqb_spec k "dims"); [contradiction|reflexivity].
Qed.

(** ** Names of patches in memory *)
Section Names.
Context {A : Type}.
Implicit Types p q : dpatch A.
Variable show : list scal -> list string.
Variable times : list scal -> bool.

Definition words : list string := ["network"; "station"; "tag"]%string.
Lemma row_word p k : ~ contains "_" k -> k <> "dims"%string -> assoc k (flat_dump (dp_attrs p)) = value_of (dp_attrs p) k.
Proof. intros N D. rewrite flat_word by exact N. now apply dump_vals. Qed.
Lemma plain_word k : In k (["name"; "path"]%string ++ words) -> ~ contains "_" k /\ k <> "dims"%string.
Proof. cbn. intros H. split; [intros C; apply str_contains_spec in C|]; intuition subst; discriminate. Qed.
Lemma no_column ps k : In k ["name"; "path"]%string -> (forall p, In p ps -> ~ In k (map fst (a_vals (dp_attrs p)))) -> has_column (memory_rows ps) k = false.
Proof.
  intros K N. unfold has_column, memory_rows. destruct (existsb _ _) eqn:E; [|reflexivity]. exfalso. apply existsb_exists in E. destruct E as (r & R & E). apply in_map_iff in R. destruct R as (p & <- & P).
  apply has_key_spec, assoc_In in E. destruct E as (v & E). destruct (plain_word k) as (W1 & W2); [cbn in *; tauto|]. rewrite row_word, value_assoc in E by assumption.
  pose proof (N p P) as M. apply assoc_None in M. rewrite M in E. destruct K as [<-|[<-|[]]]; discriminate.
Qed.
Lemma yes_column ps k : ps <> [] -> In k words -> (forall p, In p ps -> exists s, text_of p k s) -> has_column (memory_rows ps) k = true.
Proof.
  intros N K H. destruct ps as [|p ps]; [contradiction|]. unfold has_column. cbn [memory_rows map existsb]. destruct (H p (or_introl eq_refl)) as (s & T).
  destruct (plain_word k) as (W1 & W2); [cbn in *; tauto|]. apply orb_true_iff. left. apply has_key_spec, assoc_In. exists (AStr s). rewrite row_word by assumption. exact T.
Qed.
Definition txt p k : string := match value_of (dp_attrs p) k with Some (AStr s) => s | _ => EmptyString end.
Lemma word_text ps k : In k words -> (forall p, In p ps -> exists s, text_of p k s) -> field_text show times (column (memory_rows ps) k) = map (fun p => txt p k) ps.
Proof.
  intros K H. destruct (plain_word k) as (W1 & W2); [cbn in *; tauto|]. unfold field_text, column, memory_rows. rewrite map_map.
  assert (E : map (fun p => get_or ANull k (flat_dump (dp_attrs p))) ps = map (fun p => AStr (txt p k)) ps).
  { apply map_ext_in. intros p P. destruct (H p P) as (s & T). unfold get_or. rewrite row_word by assumption. unfold text_of in T. unfold txt. now rewrite T. }
  rewrite E. assert (F : forallb is_text (map (fun p => AStr (txt p k)) ps) = true) by (apply forallb_forall; intros x X; apply in_map_iff in X; destruct X as (p & <- & _); reflexivity).
  rewrite F, map_map. reflexivity.
Qed.
Definition rest (ps : list (dpatch A)) (i : nat) : list string :=
  map (fun c => nth i (field_text show times (column (memory_rows ps) c)) EmptyString) (filter (has_column (memory_rows ps)) ["time_min"; "time_max"]%string).
Definition full (ps : list (dpatch A)) (i : nat) p : string := ("DAS___" ++ str_join "__" (txt p "network" :: txt p "station" :: txt p "tag" :: rest ps i))%string.
Lemma names_full ps : (forall p, In p ps -> plain_name p) -> exists ns, patch_names show times (memory_rows ps) = Ok ns /\ List.length ns = List.length ps /\
  forall i p, nth_error ps i = Some p -> nth_error ns i = Some (full ps i p).
Proof.
  intros H. destruct ps as [|p0 ps0]; [exists []; split; [reflexivity|]; split; [reflexivity|]; intros [|i] p; discriminate|].
  set (ps := p0 :: ps0) in *. assert (Np : ps <> []) by discriminate.
  assert (T : forall k, In k words -> forall p, In p ps -> exists s, text_of p k s). { intros k K p P. destruct (H p P) as (_ & _ & Q). destruct (Q k K) as (s & Q1 & _). eauto. }
  assert (R : memory_rows ps <> []) by discriminate. unfold patch_names.
  assert (M : forall X (a b : X), match memory_rows ps with [] => a | _ :: _ => b end = b) by (intros; now destruct (memory_rows ps)). rewrite M.
  rewrite (no_column ps "name"%string), (no_column ps "path"%string); [|cbn; tauto|intros p P; apply (H p P)|cbn; tauto|intros p P; apply (H p P)].
  assert (F : filter (has_column (memory_rows ps)) name_fields = words ++ filter (has_column (memory_rows ps)) ["time_min"; "time_max"]%string).
  { change name_fields with (words ++ ["time_min"; "time_max"]%string). rewrite filter_app. f_equal. unfold words. cbn [filter].
    rewrite !yes_column; try reflexivity; try assumption; try (cbn; tauto); apply T; cbn; tauto. }
  rewrite F. cbn [words app]. eexists. split; [reflexivity|]. split; [rewrite map_length, seq_length; unfold memory_rows; apply map_length|].
  intros i p E. assert (Li : (i < List.length ps)%nat) by (apply nth_error_Some; congruence).
  rewrite nth_error_map. rewrite (nth_error_nth' _ 0%nat) by (rewrite seq_length; unfold memory_rows; now rewrite map_length).
  rewrite seq_nth by (unfold memory_rows; now rewrite map_length). cbn [option_map Nat.add]. f_equal. unfold full. f_equal. rewrite map_map. cbn [map].
  assert (W : forall k, In k words -> nth i (field_text show times (column (memory_rows ps) k)) EmptyString = txt p k).
  { intros k K. rewrite word_text by (auto; now apply T). rewrite (nth_indep _ _ (txt p0 k)) by now rewrite map_length. rewrite (map_nth (fun p => txt p k)).
    rewrite (nth_error_nth _ _ p0 E). reflexivity. }
  rewrite !W by (cbn; tauto). reflexivity.
Qed.
Lemma txt_spec p k s : text_of p k s -> txt p k = s.
Proof. unfold text_of, txt. now intros ->. Qed.
Lemma txt_value p k : (exists s, text_of p k s) -> value_of (dp_attrs p) k = Some (AStr (txt p k)).
Proof. intros (s & T). now rewrite (txt_spec p k s T). Qed.
Lemma full_text ps i j p q : plain_name p -> plain_name q -> full ps i p = full ps j q -> same_text p q /\ str_join "__" (rest ps i) = str_join "__" (rest ps j).
Proof.
  intros (_ & _ & P) (_ & _ & Q) E. unfold full in E. apply prefix_inj in E. rewrite !(join_cons _ (txt _ "network")), !(join_cons _ (txt _ "station")) in E by discriminate.
  assert (C : forall k, In k words -> clean (txt p k) /\ clean (txt q k)).
  { intros k K. destruct (P k K) as (s & S & C). destruct (Q k K) as (t & T & D). rewrite (txt_spec p k s S), (txt_spec q k t T). auto. }
  destruct (C "network"%string) as (C1 & C2); [cbn; tauto|]. apply clean_head in E; [|exact C1|exact C2]. destruct E as (E1 & E).
  destruct (C "station"%string) as (C3 & C4); [cbn; tauto|]. apply clean_head in E; [|exact C3|exact C4]. destruct E as (E2 & E).
  destruct (C "tag"%string) as (C5 & C6); [cbn; tauto|].
  assert (L : List.length (rest ps i) = List.length (rest ps j)) by (unfold rest; now rewrite !map_length).
  assert (E3 : txt p "tag" = txt q "tag" /\ str_join "__" (rest ps i) = str_join "__" (rest ps j)).
  { destruct (rest ps i) as [|x r], (rest ps j) as [|y s]; try discriminate; [cbn [str_join] in E; auto|].
    rewrite !(join_cons _ (txt _ "tag")) in E by discriminate. now apply clean_head in E. }
  split; [|apply E3]. intros k K. assert (Kp : exists s, text_of p k s) by (destruct (P k K) as (s & S & _); eauto). assert (Kq : exists s, text_of q k s) by (destruct (Q k K) as (s & S & _); eauto).
  rewrite (txt_value p k Kp), (txt_value q k Kq). do 2 f_equal. destruct K as [<-|[<-|[<-|[]]]]; [exact E1|exact E2|apply E3].
Qed.
Theorem names_plain ps : (forall p, In p ps -> plain_name p) -> exists ns, patch_names show times (memory_rows ps) = Ok ns /\ List.length ns = List.length ps /\
  forall i j p q n, nth_error ps i = Some p -> nth_error ps j = Some q -> nth_error ns i = Some n -> nth_error ns j = Some n -> same_text p q.
Proof.
  intros H. destruct (names_full ps H) as (ns & E & L & F). exists ns. split; [exact E|]. split; [exact L|]. intros i j p q n Ep Eq En Em.
  rewrite (F i p Ep) in En. rewrite (F j q Eq) in Em. apply (full_text ps i j p q); [apply H; eapply nth_error_In; eauto|apply H; eapply nth_error_In; eauto|congruence].
Qed.

(** *** With times *)
Lemma time_column ps c f col : (forall p, In p ps -> NoDup (map fst (a_coords (dp_attrs p)))) -> In (c, f) [("time_min"%string, s_min); ("time_max"%string, s_max)] ->
  Forall2 (fun p v => exists s, assoc "time"%string (a_coords (dp_attrs p)) = Some s /\ v = f s /\ exists z, v = ANum z) ps col -> column (memory_rows ps) c = col /\ (ps <> [] -> has_column (memory_rows ps) c = true /\ forallb is_text col = false).
Proof.
  intros ND C F. assert (G : forall p s, In p ps -> assoc "time"%string (a_coords (dp_attrs p)) = Some s -> assoc c (flat_dump (dp_attrs p)) = Some (f s)).
  { intros p s P S. destruct (flat_lims (dp_attrs p) "time" s (ND p P) S) as (F1 & F2). destruct C as [[= <- <-]|[[= <- <-]|[]]]; assumption. }
  clear ND C. split.
  - unfold column, memory_rows. rewrite map_map. induction F as [|p v ps col (s & S & -> & _) F IH]; [reflexivity|]. cbn [map]. f_equal.
    + unfold get_or. rewrite (G p s); [reflexivity|now left|exact S].
    + apply IH. intros q t Q. apply G. now right.
  - intros N. destruct F as [|p v ps col (s & S & -> & z & Z) F]; [contradiction|]. split.
    + unfold has_column. cbn [memory_rows map existsb]. apply orb_true_iff. left. apply has_key_spec, assoc_In. exists (f s). apply (G p s); [now left|exact S].
    + cbn [forallb]. now rewrite Z.
Qed.
Theorem names_times ps sec : (forall p, In p ps -> plain_name p) -> (forall p, In p ps -> NoDup (map fst (a_coords (dp_attrs p)))) -> shows_times show times ps sec ->
  exists ns, patch_names show times (memory_rows ps) = Ok ns /\ List.length ns = List.length ps /\
  forall i j p q n m, nth_error ps i = Some p -> nth_error ps j = Some q -> nth_error ns i = Some n -> nth_error ns j = Some m ->
    (n = m <-> same_text p q /\ sec p "time_min"%string = sec q "time_min"%string /\ sec p "time_max"%string = sec q "time_max"%string).
Proof.
  intros H ND S. destruct (names_full ps H) as (ns & E & L & F). exists ns. split; [exact E|]. split; [exact L|]. intros i j p q n m Ep Eq En Em.
  assert (Np : ps <> []) by (intros ->; now destruct i).
  rewrite (F i p Ep) in En. rewrite (F j q Eq) in Em. assert (n = full ps i p) by congruence. assert (m = full ps j q) by congruence. subst n m. clear En Em F E.
  assert (T : forall c, In c ["time_min"; "time_max"]%string -> has_column (memory_rows ps) c = true /\
     forall k r, nth_error ps k = Some r -> nth k (field_text show times (column (memory_rows ps) c)) EmptyString = smap tr (sec r c) /\ stamp (sec r c)).
  { intros c Cc. assert (X : exists f, In (c, f) [("time_min"%string, s_min); ("time_max"%string, s_max)]) by (destruct Cc as [<-|[<-|[]]]; eexists; cbn; [left|right; left]; reflexivity).
    destruct X as (f & Cf). destruct (S c f Cf) as (col & F1 & Tm & F2). destruct (time_column ps c f col ND Cf F1) as (-> & Hc). destruct (Hc Np) as (H1 & H2). split; [exact H1|].
    intros k r K. unfold field_text. rewrite H2, Tm. clear -F2 K. revert k K. induction F2 as [|x s xs ss Sh F2 IH]; intros [|k] K; try discriminate; cbn [nth_error map nth] in *.
    - injection K as ->. split; [now apply format_shown|apply Sh].
    - now apply IH. }
  destruct (T "time_min"%string) as (M1 & V1); [cbn; tauto|]. destruct (T "time_max"%string) as (M2 & V2); [cbn; tauto|].
  assert (Rs : forall k r, nth_error ps k = Some r -> rest ps k = [smap tr (sec r "time_min"); smap tr (sec r "time_max")]%string).
  { intros k r K. unfold rest. cbn [filter]. rewrite M1, M2. cbn [map]. now rewrite (proj1 (V1 k r K)), (proj1 (V2 k r K)). }
  assert (Pp : plain_name p) by (apply H; eapply nth_error_In; eauto). assert (Pq : plain_name q) by (apply H; eapply nth_error_In; eauto). split.
  - intros E. destruct (full_text ps i j p q Pp Pq E) as (St & J). split; [exact St|]. rewrite (Rs i p Ep), (Rs j q Eq) in J. rewrite !join_cons in J by discriminate. cbn [str_join] in J.
    apply clean_head in J; [|apply stamp_clean, (V1 i p Ep)|apply stamp_clean, (V1 j q Eq)]. destruct J as (J1 & J2).
    split; apply stamp_inj; auto; [apply (V1 i p Ep)|apply (V1 j q Eq)|apply (V2 i p Ep)|apply (V2 j q Eq)].
  - intros (St & S1 & S2). unfold full. rewrite (Rs i p Ep), (Rs j q Eq), S1, S2. unfold txt. rewrite !(St _) by (cbn; tauto). reflexivity.
Qed.
End Names.
