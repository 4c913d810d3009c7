(** PatchAttrs: updating coordinate information, and the flat form. *)
From Verif Require Import Base BaseFacts CoordModel FrameModel FrameProofs5 ChunkModel CmModel CmProofs
  AttrsModel AttrsSpec AttrsProofs AttrsProofs2 AttrsProofs5 AttrsProofs8.
From Coq Require Import Strings.String Strings.Ascii.
Local Open Scope Z_scope.

(** ** Flat keys *)
Lemma split_app n r : ~ contains "_" n -> str_split "_" (n ++ String "_" r) = n :: str_split "_" r.
Proof.
  induction n as [|c n IH]; intros N; [reflexivity|]. cbn [append str_split]. destruct (Ascii.eqb_spec c "_") as [->|C].
  - exfalso. apply N. exists EmptyString, n. reflexivity.
  - rewrite IH; [reflexivity|]. intros (x & y & E). apply N. exists (String c x), y. cbn. now rewrite E.
Qed.
Definition flat_fields : list string := ["dtype"; "min"; "max"; "step"; "units"]%string.
Lemma field_word f : In f flat_fields -> str_split "_" f = [f].
Proof. intros [<-|[<-|[<-|[<-|[<-|[]]]]]]; reflexivity. Qed.
Lemma flat_word0 n f : ~ contains "_" n -> word0 (n ++ "_" ++ f) = n.
Proof. intros N. unfold word0, split_us. cbn [append]. rewrite split_app by exact N. reflexivity. Qed.
Lemma flat_word1 n f : ~ contains "_" n -> In f flat_fields -> word1 (n ++ "_" ++ f) = f.
Proof. intros N F. unfold word1, split_us. cbn [append]. rewrite split_app by exact N. rewrite field_word by exact F. reflexivity. Qed.
Lemma coord_str_field n f : In f flat_fields -> coord_str (n ++ "_" ++ f) = true.
Proof.
  intros F. unfold coord_str. apply existsb_exists. exists f. split; [exact F|]. apply str_contains_spec. exists n, EmptyString. now rewrite append_nil_r'.
Qed.
Lemma coord_str_for_field n f : In f flat_fields -> coord_str_for n (n ++ "_" ++ f) = true.
Proof.
  intros F. unfold coord_str_for. rewrite str_drop_app. apply andb_true_intro. split; [apply str_prefix_starts; now exists ("_" ++ f)%string|].
  exact (coord_str_field EmptyString f F).
Qed.
Lemma prefix_split x : forall y c r s, (x ++ String c r = y ++ s)%string -> ~ contains (String c EmptyString) y -> starts y x.
Proof.
  induction x as [|a x IH]; intros y c r s E N.
  - destruct y as [|b y]; [now exists EmptyString|]. cbn in E. injection E as -> _. exfalso. apply N. exists EmptyString, y. reflexivity.
  - destruct y as [|b y]; [now exists (String a x)|]. cbn in E. injection E as -> E. destruct (IH y c r s E) as (t & ->).
    + intros (p & q & Q). apply N. exists (String b p), q. cbn. now rewrite Q.
    + exists t. reflexivity.
Qed.
Lemma starts_flat d n f : starts d (n ++ "_" ++ f) -> ~ contains "_" d -> starts d n.
Proof. intros (r & E) N. apply (prefix_split n d "_" f r); [exact E|exact N]. Qed.
Lemma split_unique n m f g : ~ contains "_" n -> ~ contains "_" m -> (n ++ "_" ++ f = m ++ "_" ++ g)%string -> n = m /\ f = g.
Proof.
  revert m. induction n as [|a n IH]; intros [|b m] Nn Nm E; cbn in E.
  - injection E as E. now split.
  - injection E as E0 _. subst b. exfalso. apply Nm. exists EmptyString, m. reflexivity.
  - injection E as E0 _. subst a. exfalso. apply Nn. exists EmptyString, n. reflexivity.
  - injection E as -> E. destruct (IH m) as (-> & ->); [| |exact E|now split].
    + intros (p & q & Q). apply Nn. exists (String b p), q. cbn. now rewrite Q.
    + intros (p & q & Q). apply Nm. exists (String b p), q. cbn. now rewrite Q.
Qed.
Lemma flat_not_d ds n f d : flat_names ds -> In n ds -> (n ++ "_" ++ f)%string <> ("d_" ++ d)%string.
Proof.
  intros (_ & N & _) I E. destruct (N n I) as (_ & N1 & N2). apply N2. apply (split_unique n "d" f d N1); [|exact E].
  intros (x & y & Q). destruct x as [|? x]; [discriminate|]. cbn in Q. injection Q as _ Q. destruct x; discriminate.
Qed.
Lemma flat_other ds n d f : flat_names ds -> In n ds -> In d ds -> d <> n -> ~ starts d (n ++ "_" ++ f) /\ (n ++ "_" ++ f)%string <> ("d_" ++ d)%string.
Proof.
  intros F In_ Id N. split; [|now apply (flat_not_d ds)]. destruct F as (_ & F1 & F2). intros S. apply N. apply F2; try assumption.
  apply (starts_flat d n f S). apply (F1 d Id).
Qed.
Lemma dims_not_field d : coord_str_for d "dims" = false.
Proof.
  apply Bool.not_true_iff_false. unfold coord_str_for. rewrite Bool.andb_true_iff. intros (P & C). apply str_prefix_starts in P. destruct P as (r & E).
  rewrite E, str_drop_app in C. apply coord_str_word in C. destruct C as (x & y & ->).
  assert (H : contains "_" "dims") by (exists (d ++ x)%string, y; rewrite E, append_assoc'; reflexivity).
  apply str_contains_spec in H. vm_compute in H. discriminate.
Qed.

(** ** Updating one field of one coordinate *)
Lemma field_set s f v : In f ["min"; "max"; "step"; "units"]%string -> assoc_set f v (summ_dict s) = summ_dict (with_field s f v).
Proof. intros [<-|[<-|[<-|[<-|[]]]]]; reflexivity. Qed.
Lemma full_set n s' l : In n (map fst l) ->
  map (fun e : string * summ => (fst e, summ_dict (snd e))) (assoc_set n s' l) =
  assoc_set n (summ_dict s') (map (fun e => (fst e, summ_dict (snd e))) l).
Proof.
  induction l as [|(m & t) l IH]; cbn [map fst snd assoc_set]; [intros []|]. intros H. destruct (String.eqb_spec n m) as [->|N]; [reflexivity|].
  cbn [map fst snd]. rewrite IH; [reflexivity|]. destruct H; [congruence|assumption].
Qed.
Definition put (a : attrs) (n : string) (s : summ) : attrs := mkAttrs (a_vals a) (a_dims a) (assoc_set n s (a_coords a)).
Lemma put_names a n s : In n (map fst (a_coords a)) -> map fst (a_coords (put a n s)) = map fst (a_coords a).
Proof. intros I. unfold put. cbn [a_coords]. rewrite keys_assoc_set. now apply mem_In' in I; rewrite I. Qed.
Lemma put_names_of a n s : In n (map fst (a_coords a)) -> names_of (put a n s) = names_of a.
Proof. intros I. unfold names_of. rewrite put_names by exact I. reflexivity. Qed.
Lemma put_tidy a n s : tidy a -> In n (map fst (a_coords a)) -> tidy_summ s -> tidy (put a n s).
Proof.
  intros T I S. constructor.
  - apply (t_keys _ T).
  - rewrite put_names by exact I. apply (t_coords _ T).
  - apply (t_own _ T).
  - intros D. rewrite (t_dims _ T D) in I. destruct I.
  - rewrite put_names_of by exact I. apply (t_names _ T).
  - intros m t H. assert (Q : assoc m (assoc_set n s (a_coords a)) = Some t) by (apply in_assoc; [apply NoDup_assoc_set, (t_coords _ T)|exact H]).
    rewrite assoc_assoc_set in Q. destruct (String.eqb_spec m n) as [->|N]; [now injection Q as <-|].
    apply assoc_in in Q. apply (t_summ _ T m t Q).
Qed.
Lemma with_field_tidy s f v : tidy_summ s -> tidy_summ (with_field s f v).
Proof. intros H. unfold with_field. repeat match goal with |- context [if ?b then _ else _] => destruct b end; exact H. Qed.

(** ** Rebuilding after an update *)
Lemma update_rebuild a a' X : tidy a -> tidy a' -> (forall k, In k (map fst (a_vals a)) -> apart (names_of a) k) -> a_dims a <> EmptyString ->
  a_vals a' = a_vals a -> a_dims a' = a_dims a -> incl (names_of a') (names_of a) ->
  X = AStr (a_dims a) \/ X = ASeq (dim_tuple a) ->
  exists r, mk_attrs (mkDict (merge_fields [("dims"%string, X)] (d_vals (dump_set a))) (Some (CDict (full_coords a')))) = Ok r /\ same_attrs a' r.
Proof.
  intros T T' Ap Dn Ev Ed En HX. destruct (full_coords_good a' T') as (C1 & C2 & C3). set (vals := merge_fields _ _).
  assert (ND1 : NoDup (map fst [("dims"%string, X)])) by (repeat constructor; auto).
  assert (Av : forall k, assoc k vals = if String.eqb k "dims" then Some X else assoc k (a_vals a)).
  { intros k. unfold vals. rewrite (merge_assoc _ _ k ND1). cbn [assoc].
    destruct (String.eqb_spec k "dims"); [reflexivity|]. rewrite dump_set_assoc by exact T. now destruct (String.eqb_spec k "dims"). }
  assert (Kv : forall k, In k (map fst vals) -> k = "dims"%string \/ In k (map fst (a_vals a))).
  { intros k K. apply merge_keys in K. destruct K as [[K|[]]|K]; [left; now symmetry|]. unfold dump_set in K. cbn [d_vals] in K.
    rewrite map_app, in_app_iff in K. destruct K as [K|[K|[]]]; [now right|left; now symmetry]. }
  assert (Dt : dim_tuple a' = dim_tuple a) by (unfold dim_tuple; now rewrite Ed).
  destruct (rebuild_from a' (mkDict vals (Some (CDict (full_coords a')))) summ_dict (fair_of a' T')) as (r & E & V & D & C).
  - apply set_good; [exact T'|apply merge_nodup, dump_set_nodup, T| | | |exact C1|apply map_fst_map].
    + intros k K N. destruct (Kv k K) as [|K']; [contradiction|]. destruct (Ap k K') as (A1 & A2). split; [exact A1|]. intros c C. apply A2, En, C.
    + intros K. destruct (Kv _ K); [discriminate|]. now apply (proj2 (t_own _ T)).
    + exists X, (dim_tuple a'). split; [rewrite Av; reflexivity|]. split; [|apply dims_in_names]. rewrite Dt. destruct (dim_tuple_ne a Dn) as (D1 & D2).
      destruct HX as [-> | ->]; [split; [exact Dn|exact D1]|now split].
  - now rewrite Ed.
  - reflexivity.
  - intros (n & s) I. apply mk_summ_dict. apply (t_summ _ T' n s I).
  - rewrite Ed, Dt. cbn [d_vals]. rewrite Av, String.eqb_refl. destruct HX as [-> | ->]; [now left|now right].
  - exists r. split; [exact E|]. constructor; [|exact D|exact C]. intros k K. rewrite (V k K). unfold eff. cbn [d_vals]. rewrite Av.
    destruct (String.eqb_spec k "dims"); [contradiction|]. rewrite value_assoc, Ev, default_of_spec. reflexivity.
Qed.

Lemma flat_one ds n f v pre : flat_names ds -> In n ds -> In f flat_fields -> (pre = [] \/ exists x, pre = [("dims"%string, x)]) ->
  flat_info (mkDict (pre ++ [((n ++ "_" ++ f)%string, v)]) None) n = [(f, v)].
Proof.
  intros F I If P. unfold flat_info. cbn [d_vals].
  assert (A : assoc ("d_" ++ n)%string (pre ++ [((n ++ "_" ++ f)%string, v)]) = None).
  { apply assoc_None. rewrite map_app, in_app_iff. intros [H|[H|[]]].
    - destruct P as [-> | (x & ->)]; [destruct H|]. destruct H as [H|[]]. discriminate.
    - now apply (flat_not_d ds n f n F I). }
  rewrite A. destruct F as (_ & F & _). destruct (F n I) as (_ & F1 & _).
  assert (G : fold_left (fun m e => if coord_str_for n (fst e) then assoc_set (word1 (fst e)) (snd e) m else m) pre ([] : sdict) = []).
  { destruct P as [-> | (x & ->)]; [reflexivity|]. cbn [fold_left fst]. now rewrite dims_not_field. }
  rewrite fold_left_app, G. cbn [fold_left fst snd]. rewrite coord_str_for_field by exact If. rewrite flat_word1 by assumption. reflexivity.
Qed.
Lemma add_flat_one ds n f v pre : flat_names ds -> In n ds -> In f flat_fields -> (pre = [] \/ exists x, pre = [("dims"%string, x)]) ->
  fold_left (add_flat [] (mkDict (pre ++ [((n ++ "_" ++ f)%string, v)]) None)) ds [] = [(n, [(f, v)])].
Proof.
  intros F I If P. set (o := mkDict _ None).
  assert (Other : forall l out, incl l ds -> ~ In n l -> fold_left (add_flat [] o) l out = out).
  { induction l as [|d l IH]; intros out Il Nn; [reflexivity|]. cbn [fold_left]. unfold add_flat at 2. rewrite flat_info_nil.
    - cbn [map meets_required]. apply IH; [intros x X; apply Il; now right|intros X; apply Nn; now right].
    - unfold o. cbn [d_vals]. intros k K Kd. rewrite map_app, in_app_iff in K. destruct K as [K|[K|[]]].
      + destruct P as [-> | (x & ->)]; [destruct K|]. destruct K as [K|[]]. cbn in K. congruence.
      + cbn [fst] in K. subst k. apply (flat_other ds); [exact F|exact I|apply Il; now left|]. intros ->. apply Nn. now left. }
  destruct (in_split _ _ I) as (l1 & l2 & E). pose proof F as (ND & _). rewrite E in ND. apply NoDup_remove_2 in ND. rewrite in_app_iff in ND.
  rewrite E, fold_left_app. rewrite (Other l1); [|intros x X; rewrite E; apply in_or_app; left; exact X|tauto]. cbn [fold_left]. unfold add_flat at 2.
  unfold o. rewrite (flat_one ds) by assumption. cbn [map fst].
  assert (M : meets_required [] false [f] = true).
  { unfold meets_required. cbn [negb andb orb subset forallb]. now destruct (existsb _ [f]). }
  rewrite M. apply Other; [intros x X; rewrite E; apply in_or_app; right; right; exact X|tauto].
Qed.

Theorem update_field a n s f v pre : family [a] -> a_dims a <> EmptyString -> flat_names (dim_tuple a) -> In n (dim_tuple a) ->
  assoc n (a_coords a) = Some s -> In f ["min"; "max"; "step"; "units"]%string ->
  pre = [("dims"%string, AStr (a_dims a))] \/ (pre = [] /\ (f = "units"%string \/ dim_tuple a = [n])) ->
  exists r, attrs_update a (mkDict (pre ++ [((n ++ "_" ++ f)%string, v)]) None) = Ok r /\
    same_attrs (put a n (with_field s f v)) r.
Proof.
  intros F Dn Fl I As If P. assert (T : tidy a) by (apply F; now left).
  assert (Ap : forall k, In k (map fst (a_vals a)) -> apart (names_of a) k) by (intros k K; apply (proj2 F a a); [now left|now left|exact K]).
  destruct (dim_tuple_ne a Dn) as (Dt & Dne). assert (If' : In f flat_fields) by now right.
  assert (P' : pre = [] \/ exists x, pre = [("dims"%string, x)]) by (destruct P as [-> | (-> & _)]; [right; eexists; reflexivity|now left]).
  assert (N1 : ~ contains "_" n) by apply (proj1 (proj2 Fl) n I).
  assert (In' : In n (map fst (a_coords a))) by (apply assoc_In; now exists s).
  set (K := (n ++ "_" ++ f)%string) in *. set (X := match pre with [] => ASeq (dim_tuple a) | _ => AStr (a_dims a) end).
  assert (S : separate [] (mkDict (pre ++ [(K, v)]) None) (Some (dim_tuple a)) = Ok ([(n, [(f, v)])], [("dims"%string, X)])).
  { assert (Dp : info_dims [] (mkDict (pre ++ [(K, v)]) None) = Ok (match pre with [] => if String.eqb f "units" then [] else [n] | _ => dim_tuple a end)).
    { unfold info_dims. cbn [d_coords d_vals]. destruct P as [-> | (-> & P)].
      - cbn [app assoc]. rewrite String.eqb_refl. destruct (String.eqb_spec (a_dims a) EmptyString); [contradiction|]. now rewrite Dt.
      - cbn [app assoc map fst]. destruct (String.eqb_spec "dims" K) as [E|_].
        { exfalso. assert (C : contains "_" "dims") by (exists n, f; exact E). apply str_contains_spec in C. vm_compute in C. discriminate. }
        unfold potential_keys. cbn [fold_left]. unfold K. rewrite coord_str_field, flat_word0, flat_word1 by assumption. cbn [add_word assoc app filter snd].
        destruct If as [<-|[<-|[<-|[<-|[]]]]]; reflexivity. }
    rewrite (separate_same [] _ (dim_tuple a) _ Dp).
    2:{ destruct P as [-> | (-> & [-> | P])]; [now right|now left|]. rewrite P. destruct (String.eqb f "units"); [now left|now right]. }
    2:{ exists n. split; [exact I|]. rewrite map_app, in_app_iff. intros [H|[H|[]]].
        - destruct P as [-> | (-> & _)]; [|destruct H]. destruct H as [H|[]]. cbn in H. subst n. apply (proj1 (t_names _ T)). apply dims_in_names, I.
        - cbn [fst] in H. apply N1. exists n, f. symmetry. exact H. }
    unfold K. rewrite (add_flat_one (dim_tuple a)) by assumption. fold K. cbv zeta.
    assert (Pk : pop_keys [(n, [(f, v)])] (pre ++ [(K, v)]) = pre).
    { unfold pop_keys. cbn [fold_left fst snd map]. fold K.
      assert (D1 : del K (pre ++ [(K, v)]) = pre).
      { unfold del. rewrite filter_app. cbn [filter fst]. rewrite String.eqb_refl. cbn [negb]. rewrite app_nil_r. destruct P as [-> | (-> & _)]; [|reflexivity].
        cbn [filter fst]. destruct (String.eqb_spec K "dims") as [E|_]; [|reflexivity].
        exfalso. assert (C : contains "_" "dims") by (exists n, f; symmetry; exact E). apply str_contains_spec in C. vm_compute in C. discriminate. }
      rewrite D1. destruct (has_key "step"%string [(f, v)]); [|reflexivity]. apply del_id. destruct P as [-> | (-> & _)]; [|intros []].
      intros [H|[]]. discriminate. }
    rewrite Pk. unfold X. destruct P as [-> | (-> & _)]; reflexivity. }
  unfold attrs_update. rewrite S. cbn [bind d_coords fold_left].
  change (match d_coords (dump_set a) with Some c => coval_dict c | None => [] end) with (full_coords a).
  assert (Cs : add_info (full_coords a) (n, [(f, v)]) = full_coords (put a n (with_field s f v))).
  { unfold add_info, full_coords. cbn [fst snd]. rewrite assoc_map_snd, As. unfold merge_fields. cbn [fold_left fst snd].
    rewrite field_set by exact If. unfold put. cbn [a_coords]. now rewrite full_set. }
  rewrite Cs. assert (Ts : tidy_summ s) by (apply (t_summ _ T n), assoc_in, As).
  apply (update_rebuild a (put a n (with_field s f v)) X); try assumption; try reflexivity.
  - apply put_tidy; [exact T|exact In'|now apply with_field_tidy].
  - rewrite put_names_of by exact In'. apply incl_refl.
  - unfold X. destruct P as [-> | (-> & _)]; [now left|now right].
Qed.
