(** The dicts that merging works on, and what PatchAttrs makes of them. *)
From Verif Require Import Base BaseFacts CoordModel FrameModel FrameProofs5 ChunkModel CmModel CmProofs
  AttrsModel AttrsSpec AttrsProofs.
From Coq Require Import Strings.String Strings.Ascii.
Local Open Scope Z_scope.

(** An entry of a "coords" dict that makes a summary. *)
Definition entry_ok (m : sdict) : Prop :=
  NoDup (map fst m) /\ has_key "min"%string m = true /\ has_key "max"%string m = true
  /\ exists s, mk_summ m = Ok s.

(** A value of "dims" that names the dimensions [ds]. *)
Definition dims_val (v : scal) (ds : list string) : Prop :=
  match v with
  | AStr s => s <> EmptyString /\ ds = str_split ","%char s
  | ASeq l => l <> [] /\ ds = l
  | _ => False
  end.
Record good (N : list string) (d : adict) : Prop :=
  { g_keys : NoDup (map fst (d_vals d));
    g_apart : forall k, In k (map fst (d_vals d)) -> k <> "dims"%string -> apart N k;
    g_own : ~ In "coords"%string (map fst (d_vals d));
    g_man : forall x c, d_coords d <> Some (CMan x c);
    g_dims : assoc "dims"%string (d_vals d) = None
             \/ exists v ds, assoc "dims"%string (d_vals d) = Some v /\ dims_val v ds /\ incl ds N;
    g_names : incl (map fst (coords_of d)) N;
    g_nodup : NoDup (map fst (coords_of d));
    g_entry : forall n m, In (n, m) (coords_of d) -> entry_ok m }.
Definition fair_names (N : list string) : Prop := ~ In "dims"%string N /\ ~ In "coords"%string N.

Definition eff (d : adict) (k : string) : option scal :=
  match assoc k (d_vals d) with Some v => Some v | None => assoc k field_defaults end.

Lemma good_plain N d : fair_names N -> good N d -> plain_dict d.
Proof.
  intros (F1 & F2) G.
  assert (I : incl (dict_names d) N).
  { unfold dict_names. apply incl_app; [apply (g_names _ _ G)|].
    destruct (g_dims _ _ G) as [->|(v & ds & -> & V & I)]; [intros x []|].
    destruct v; cbn [dims_val] in V; try contradiction; destruct V as (_ & ->); exact I. }
  constructor.
  - apply (g_keys _ _ G).
  - intros k K NK. destruct (g_apart _ _ G k K NK) as (A & B). split; [exact A|]. intros c C. apply B. now apply I.
  - apply (g_own _ _ G).
  - apply (g_man _ _ G).
  - destruct (g_dims _ _ G) as [E|(v & ds & E & V & _)]; [now left|right].
    destruct v; cbn [dims_val] in V; try contradiction; destruct V as (V & _); eauto.
  - split; intros H; [apply F1|apply F2]; now apply I.
  - intros n m H. destruct (g_entry _ _ G n m H) as (_ & A & B & _). auto.
Qed.

Lemma map_result_entries (l : list (string * sdict)) : (forall n m, In (n, m) l -> exists s, mk_summ m = Ok s) ->
  exists cs, map_result (fun e => do s <- mk_summ (snd e); Ok (fst e, s)) l = Ok cs
    /\ map fst cs = map fst l
    /\ forall n, assoc n cs = match assoc n l with
                              | Some m => match mk_summ m with Ok s => Some s | Err _ => None end
                              | None => None end.
Proof.
  induction l as [|(n & m) l IH]; intros H; cbn [map_result snd fst].
  - exists []. repeat split.
  - destruct (H n m (or_introl eq_refl)) as [s S]. rewrite S. cbn [bind].
    destruct IH as (cs & E & F & A); [intros n' m' H'; apply (H n' m'); now right|].
    rewrite E. cbn [bind]. exists ((n, s) :: cs). split; [reflexivity|]. split; [cbn; now rewrite F|].
    intros x. cbn [assoc]. destruct (String.eqb x n); [now rewrite S|apply A].
Qed.

Lemma default_of_spec k : assoc k field_defaults = default_of k.
Proof.
  unfold default_of, field_defaults. cbn [assoc existsb].
  repeat match goal with |- context [(k =? ?x)%string] => destruct (String.eqb_spec k x); subst; try reflexivity; try congruence end.
Qed.
Lemma mk_attrs_good N d : fair_names N -> good N d -> exists r, mk_attrs d = Ok r
  /\ (forall k, k <> "dims"%string -> value_of r k = eff d k)
  /\ (forall k, k <> "dims"%string -> assoc k (a_vals r) = assoc k (d_vals d))
  /\ NoDup (map fst (a_vals r))
  /\ (forall s, assoc "dims"%string (d_vals d) = Some (AStr s) -> a_dims r = s)
  /\ (assoc "dims"%string (d_vals d) = None -> a_dims r = str_join "," (map fst (coords_of d)))
  /\ map fst (a_coords r) = map fst (coords_of d)
  /\ (forall n, assoc n (a_coords r) = match assoc n (coords_of d) with
                              | Some m => match mk_summ m with Ok s => Some s | Err _ => None end
                              | None => None end)
  /\ (forall l, assoc "dims"%string (d_vals d) = Some (ASeq l) -> a_dims r = str_join "," l).
Proof.
  intros F G. destruct (map_result_entries (coords_of d)) as (cs & E & Fst & A).
  { intros n m H. apply (g_entry _ _ G n m H). }
  rewrite (mk_attrs_plain d (good_plain N d F G) cs E). eexists. split; [reflexivity|].
  assert (AV : forall k, k <> "dims"%string -> assoc k (del "dims"%string (d_vals d)) = assoc k (d_vals d)).
  { intros k K. rewrite assoc_del. destruct (String.eqb_spec k "dims"); [contradiction|reflexivity]. }
  split; [|split; [|split; [|split; [|split; [|split; [|split]]]]]]; cbn [a_vals a_dims a_coords].
  - intros k K. rewrite value_assoc, <- default_of_spec. unfold eff. cbn [a_vals]. now rewrite (AV k K).
  - exact AV.
  - unfold del. pose proof (g_keys _ _ G) as ND. revert ND. clear. generalize (d_vals d) as l.
    induction l as [|(k & v) l IH]; cbn [filter map fst]; intros ND; [constructor|]. inversion ND; subst.
    destruct (negb ("dims" =? k)%string); [|now apply IH]. cbn [map fst]. constructor; [|now apply IH].
    intros H. apply H1. apply in_map_iff in H. destruct H as (x & <- & X). apply filter_In in X.
    apply in_map. tauto.
  - intros s ->. reflexivity.
  - intros ->. now rewrite Fst.
  - exact Fst.
  - exact A.
  - intros l ->. reflexivity.
Qed.

(** ** Dumps *)

(** The attribute part of a short dump, without the dropped names. *)
Definition part_dict (drop : list string) (a : attrs) : adict :=
  let d := dump_short a in
  mkDict (filter (fun e => negb (mem (fst e) drop)) (d_vals d))
         (if mem "coords" drop then None else d_coords d).

Lemma assoc_filter_pair {A} (p : string * A -> bool) k l : NoDup (map fst l) ->
  assoc k (filter p l) = match assoc k l with Some v => if p (k, v) then Some v else None | None => None end.
Proof.
  induction l as [|(m & v) l IH]; cbn [filter map fst]; intros ND; [reflexivity|]. inversion ND; subst.
  assert (Z : assoc m l = None) by now apply assoc_None.
  cbn [assoc]. destruct (String.eqb_spec k m) as [->|N].
  - destruct (p (m, v)); cbn [assoc]; [now rewrite String.eqb_refl|]. rewrite IH by assumption. now rewrite Z.
  - destruct (p (m, v)); cbn [assoc]; [|now apply IH].
    destruct (String.eqb_spec k m); [contradiction|now apply IH].
Qed.
Lemma NoDup_filter_fst {A} (p : string * A -> bool) l : NoDup (map fst l) -> NoDup (map fst (filter p l)).
Proof.
  induction l as [|(m & v) l IH]; cbn [filter map fst]; intros ND; [constructor|]. inversion ND; subst.
  destruct (p (m, v)); [|now apply IH]. cbn [map fst]. constructor; [|now apply IH].
  intros H. apply H1. apply in_map_iff in H. destruct H as (x & <- & X). apply filter_In in X. apply in_map. tauto.
Qed.
Lemma in_filter_fst {A} (p : string * A -> bool) l k : In k (map fst (filter p l)) -> In k (map fst l).
Proof. intros H. apply in_map_iff in H. destruct H as (x & <- & X). apply filter_In in X. apply in_map. tauto. Qed.

Lemma short_vals a : tidy a -> NoDup (map fst (d_vals (dump_short a)))
  /\ assoc "dims"%string (d_vals (dump_short a)) = (if String.eqb (a_dims a) "" then None else Some (AStr (a_dims a)))
  /\ (forall k, k <> "dims"%string -> assoc k (d_vals (dump_short a)) =
        match assoc k (a_vals a) with Some v => if at_default (k, v) then None else Some v | None => None end)
  /\ forall k, In k (map fst (d_vals (dump_short a))) -> k <> "dims"%string -> In k (map fst (a_vals a)).
Proof.
  intros T. unfold dump_short. cbn [d_vals]. destruct (t_own _ T) as (Nd & Nc). pose proof (t_keys _ T) as ND.
  set (f := filter _ (a_vals a)).
  assert (If : forall k, In k (map fst f) -> In k (map fst (a_vals a))) by (intros k; apply in_filter_fst).
  assert (Nf : NoDup (map fst f)) by now apply NoDup_filter_fst.
  assert (Af : forall k, assoc k f = match assoc k (a_vals a) with Some v => if at_default (k, v) then None else Some v | None => None end).
  { intros k. unfold f. rewrite assoc_filter_pair by exact ND. destruct (assoc k (a_vals a)); [|reflexivity].
    now destruct (at_default (k, s)). }
  assert (Zd : assoc "dims"%string f = None) by (apply assoc_None; intros H; apply Nd; now apply If).
  destruct (String.eqb (a_dims a) "").
  - rewrite app_nil_r. repeat split; auto.
  - rewrite map_app. cbn [map fst]. split; [|split; [|split]].
    + apply NoDup_Add with (a := "dims"%string) (l := map fst f); [|split; [exact Nf|intros H; apply Nd; now apply If]].
      apply (Add_app "dims"%string (map fst f) []) || (rewrite <- (app_nil_r (map fst f)) at 1; apply Add_app).
    + rewrite assoc_app, Zd. reflexivity.
    + intros k K. rewrite assoc_app, <- Af. destruct (assoc k f); [reflexivity|]. cbn.
      destruct (String.eqb_spec k "dims"); [contradiction|reflexivity].
    + intros k H K. apply in_app_iff in H. destruct H as [H|[H|[]]]; [now apply If|congruence].
Qed.
Lemma at_default_spec k v : at_default (k, v) = true -> assoc k field_defaults = Some v.
Proof.
  unfold at_default. cbn [fst snd]. destruct (assoc k field_defaults) as [d|] eqn:E; [|discriminate].
  intros H. apply scal_eqb_spec in H. destruct H as (-> & _). reflexivity.
Qed.
Lemma eff_short a k : tidy a -> k <> "dims"%string -> eff (dump_short a) k = value_of a k.
Proof.
  intros T K. unfold eff. rewrite value_assoc, <- default_of_spec. destruct (short_vals a T) as (_ & _ & A & _). rewrite (A k K).
  destruct (assoc k (a_vals a)) as [v|]; [|reflexivity].
  destruct (at_default (k, v)) eqn:D; [|reflexivity]. now apply at_default_spec.
Qed.

Lemma short_keys s : NoDup (map fst (summ_short s)).
Proof.
  unfold summ_short. destruct (s_step s), (s_units s); cbn [app filter not_none snd map fst];
  repeat constructor; cbn; intuition congruence.
Qed.
Lemma short_assoc s k : assoc k (summ_short s) =
  if String.eqb k "dtype" then Some (AStr (s_dtype s))
  else if String.eqb k "min" then Some (s_min s)
  else if String.eqb k "max" then Some (s_max s)
  else if String.eqb k "step" then (if not_none ("step"%string, s_step s) then Some (s_step s) else None)
  else if String.eqb k "units" then (if not_none ("units"%string, s_units s) then Some (s_units s) else None)
  else None.
Proof.
  unfold summ_short, not_none. cbn [snd].
  destruct (s_step s), (s_units s); cbn [app filter snd assoc];
  repeat match goal with |- context [(k =? ?x)%string] => destruct (String.eqb_spec k x); subst; try reflexivity; try congruence end.
Qed.
Lemma mk_summ_short s : tidy_summ s -> mk_summ (summ_short s) = Ok s.
Proof.
  intros (T1 & T2). unfold mk_summ, get_or. rewrite !short_assoc. cbn -[str_split].
  destruct (String.eqb_spec (s_dtype s) ""); [contradiction|].
  rewrite str_split_single; cbn [hd].
  - destruct s as [dt mn mx st un]; cbn [s_dtype s_min s_max s_step s_units]. f_equal. f_equal.
    + now destruct st.
    + now destruct un.
  - intros a b E. apply T2. exists a, b. cbn. exact E.
Qed.
Lemma entry_short s : tidy_summ s -> entry_ok (summ_short s).
Proof.
  intros T. split; [apply short_keys|]. split; [reflexivity|]. split; [reflexivity|]. exists s. now apply mk_summ_short.
Qed.
Lemma coords_short a : coords_of (dump_short a) = map (fun e => (fst e, summ_short (snd e))) (a_coords a).
Proof. unfold dump_short, coords_of. cbn [d_coords]. destruct (a_coords a); reflexivity. Qed.
Lemma map_fst_map {A B} (f : A -> B) (l : list (string * A)) :
  map fst (map (fun e => (fst e, f (snd e))) l) = map fst l.
Proof. rewrite map_map. apply map_ext. reflexivity. Qed.
Lemma assoc_map_snd {A B} (f : A -> B) k (l : list (string * A)) :
  assoc k (map (fun e => (fst e, f (snd e))) l) = match assoc k l with Some v => Some (f v) | None => None end.
Proof.
  induction l as [|(n & v) l IH]; cbn [map fst snd assoc]; [reflexivity|].
  destruct (String.eqb k n); [reflexivity|exact IH].
Qed.

Definition all_names (l : list attrs) : list string := List.concat (map names_of l).
Lemma in_all_names l a n : In a l -> In n (names_of a) -> In n (all_names l).
Proof. intros A H. unfold all_names. apply in_concat. exists (names_of a). split; [now apply in_map|exact H]. Qed.
Lemma family_fair l : family l -> fair_names (all_names l).
Proof.
  intros (T & _). split; intros H; apply in_concat in H; destruct H as (x & X & H); apply in_map_iff in X;
  destruct X as (a & <- & A); destruct (t_names _ (T a A)); contradiction.
Qed.
Lemma family_apart l a k : family l -> In a l -> In k (map fst (a_vals a)) -> apart (all_names l) k.
Proof.
  intros (_ & F) A K. split; [apply (F a a k A A K)|].
  intros c C. apply in_concat in C. destruct C as (x & X & C). apply in_map_iff in X. destruct X as (b & <- & B).
  apply (F a b k A B K). exact C.
Qed.

Lemma part_coords drop a : plain_drop drop -> d_coords (part_dict drop a) = d_coords (dump_short a).
Proof. intros (_ & N). unfold part_dict. cbn [d_coords]. apply mem_false in N. now rewrite N. Qed.
Lemma part_assoc drop a k : assoc k (d_vals (part_dict drop a)) = if mem k drop then None else assoc k (d_vals (dump_short a)).
Proof.
  unfold part_dict. cbn [d_vals]. rewrite (assoc_filter (fun x => negb (mem x drop))). now destruct (mem k drop).
Qed.
Lemma part_good l drop a : family l -> plain_drop drop -> In a l -> good (all_names l) (part_dict drop a).
Proof.
  intros F P A. destruct F as (T & Ap) eqn:Fe. pose proof (T a A) as Ta.
  destruct (short_vals a Ta) as (ND & D & _ & I).
  assert (C : coords_of (part_dict drop a) = coords_of (dump_short a)) by (unfold coords_of; now rewrite part_coords).
  assert (I' : forall k, In k (map fst (d_vals (part_dict drop a))) -> In k (map fst (d_vals (dump_short a)))) by (intros k; apply in_filter_fst).
  constructor.
  - now apply NoDup_filter_fst.
  - intros k K N. apply (family_apart l a); [split; assumption|exact A|]. apply I; [now apply I'|exact N].
  - intros H. apply (proj2 (t_own _ Ta)). apply I; [now apply I'|discriminate].
  - intros x c. rewrite part_coords by exact P. unfold dump_short. cbn [d_coords]. destruct (a_coords a); discriminate.
  - rewrite part_assoc. destruct P as (P1 & _). apply mem_false in P1. rewrite P1, D.
    destruct (String.eqb_spec (a_dims a) "") as [|N]; [now left|right]. exists (AStr (a_dims a)), (str_split ","%char (a_dims a)). split; [reflexivity|]. split; [now split|].
    intros d H. apply (in_all_names l a); [exact A|]. unfold names_of. apply in_app_iff. right. unfold dim_tuple.
    destruct (String.eqb_spec (a_dims a) ""); [contradiction|exact H].
  - rewrite C, coords_short, map_fst_map. intros n H. apply (in_all_names l a); [exact A|]. unfold names_of. apply in_app_iff. now left.
  - rewrite C, coords_short, map_fst_map. apply (t_coords _ Ta).
  - rewrite C, coords_short. intros n m H. apply in_map_iff in H. destruct H as ((n' & s) & E & H). injection E as <- <-.
    apply entry_short. apply (t_summ _ Ta n' s H).
Qed.

(** The effective value in a dict that went through dropping. *)
Lemma eff_part drop a k : tidy a -> k <> "dims"%string ->
  eff (part_dict drop a) k = if mem k drop then default_of k else value_of a k.
Proof.
  intros T K. unfold eff. rewrite part_assoc. destruct (mem k drop); [apply default_of_spec|].
  apply (eff_short a k T K).
Qed.

(** ** Combining dicts keeps them good *)
Lemma eff_keep_eq a b k : NoDup (map fst (d_vals a)) -> assoc k (d_vals (keep_eq a b)) =
  match assoc k (d_vals a), assoc k (d_vals b) with
  | Some v, Some w => if scal_eqb v w then Some v else None
  | _, _ => None
  end.
Proof.
  intros ND. unfold keep_eq. cbn [d_vals]. rewrite assoc_filter_pair by exact ND. cbn [fst snd].
  destruct (assoc k (d_vals a)); [|reflexivity]. destruct (assoc k (d_vals b)); reflexivity.
Qed.
Lemma keep_eq_good N a b : good N a -> good N (keep_eq a b).
Proof.
  intros G. pose proof (g_keys _ _ G) as ND.
  assert (C : d_coords (keep_eq a b) = d_coords a \/ d_coords (keep_eq a b) = None).
  { unfold keep_eq. cbn [d_coords]. destruct (d_coords a), (d_coords b); try tauto. destruct (coval_eqb c c0); tauto. }
  assert (C' : coords_of (keep_eq a b) = coords_of a \/ coords_of (keep_eq a b) = []).
  { unfold coords_of. destruct C as [-> | ->]; tauto. }
  assert (I : forall k, In k (map fst (d_vals (keep_eq a b))) -> In k (map fst (d_vals a))) by (intros k; apply in_filter_fst).
  constructor.
  - now apply NoDup_filter_fst.
  - intros k K. apply (g_apart _ _ G). now apply I.
  - intros H. apply (g_own _ _ G). now apply I.
  - intros x c. destruct C as [-> | ->]; [apply (g_man _ _ G)|discriminate].
  - rewrite eff_keep_eq by exact ND. destruct (g_dims _ _ G) as [->|(v & ds & -> & Is)]; [now left|].
    destruct (assoc "dims" (d_vals b)) as [w|]; [|now left]. destruct (scal_eqb v w); [right; eauto|now left].
  - destruct C' as [-> | ->]; [apply (g_names _ _ G)|intros x []].
  - destruct C' as [-> | ->]; [apply (g_nodup _ _ G)|constructor].
  - destruct C' as [-> | ->]; [apply (g_entry _ _ G)|intros n m []].
Qed.
Lemma keep_all_good N t : forall a, good N a -> good N (fold_left keep_eq t a).
Proof. induction t as [|b t IH]; intros a G; cbn [fold_left]; [exact G|]. apply IH. now apply keep_eq_good. Qed.
Lemma keep_all_assoc N k t : forall a, good N a -> assoc k (d_vals (fold_left keep_eq t a)) =
  match assoc k (d_vals a) with
  | Some v => if forallb (fun b => match assoc k (d_vals b) with Some w => scal_eqb v w | None => false end) t
              then Some v else None
  | None => None
  end.
Proof.
  induction t as [|b t IH]; intros a G; cbn [fold_left forallb].
  - now destruct (assoc k (d_vals a)).
  - rewrite IH by now apply keep_eq_good. rewrite eff_keep_eq by apply (g_keys _ _ G).
    destruct (assoc k (d_vals a)) as [v|]; [|reflexivity]. destruct (assoc k (d_vals b)) as [w|]; [|reflexivity].
    destruct (scal_eqb v w); reflexivity.
Qed.

Lemma NoDup_app' {A} (a b : list A) : NoDup a -> NoDup b -> (forall x, In x a -> ~ In x b) -> NoDup (a ++ b).
Proof.
  intros Na Nb D. induction Na as [|x a H Na IH]; [exact Nb|]. cbn. constructor.
  - rewrite in_app_iff. intros [K|K]; [contradiction|]. apply (D x); [now left|exact K].
  - apply IH. intros y Y. apply D. now right.
Qed.
Lemma first_over_assoc a b k : assoc k (d_vals (first_over a b)) =
  match assoc k (d_vals a) with Some v => Some v | None => assoc k (d_vals b) end.
Proof.
  unfold first_over. cbn [d_vals]. rewrite assoc_app, (assoc_filter (fun x => negb (has_key x (d_vals a)))).
  destruct (assoc k (d_vals a)) as [v|] eqn:E; [reflexivity|]. apply assoc_None in E.
  apply has_key_false in E. now rewrite E.
Qed.
Lemma first_over_good N a b : good N a -> good N b -> good N (first_over a b).
Proof.
  intros G H.
  assert (C : d_coords (first_over a b) = d_coords a \/ d_coords (first_over a b) = d_coords b).
  { unfold first_over. cbn [d_coords]. destruct (d_coords a); tauto. }
  assert (C' : coords_of (first_over a b) = coords_of a \/ coords_of (first_over a b) = coords_of b).
  { unfold coords_of. destruct C as [-> | ->]; tauto. }
  assert (I : forall k, In k (map fst (d_vals (first_over a b))) -> In k (map fst (d_vals a)) \/ In k (map fst (d_vals b))).
  { intros k. unfold first_over. cbn [d_vals]. rewrite map_app, in_app_iff. intros [K|K]; [now left|right]. revert K. apply in_filter_fst. }
  constructor.
  - unfold first_over. cbn [d_vals]. rewrite map_app. apply NoDup_app'; [apply (g_keys _ _ G)|apply NoDup_filter_fst, (g_keys _ _ H)|].
    intros k K L. apply in_map_iff in L. destruct L as (e & <- & L). apply filter_In in L. destruct L as (_ & L).
    apply has_key_spec in K. rewrite K in L. discriminate.
  - intros k K. destruct (I k K); [apply (g_apart _ _ G)|apply (g_apart _ _ H)]; assumption.
  - intros K. destruct (I _ K); [apply (g_own _ _ G)|apply (g_own _ _ H)]; assumption.
  - intros x c. destruct C as [-> | ->]; [apply (g_man _ _ G)|apply (g_man _ _ H)].
  - rewrite first_over_assoc. destruct (g_dims _ _ G) as [->|(v & ds & -> & Is)]; [apply (g_dims _ _ H)|right; eauto].
  - destruct C' as [-> | ->]; [apply (g_names _ _ G)|apply (g_names _ _ H)].
  - destruct C' as [-> | ->]; [apply (g_nodup _ _ G)|apply (g_nodup _ _ H)].
  - destruct C' as [-> | ->]; [apply (g_entry _ _ G)|apply (g_entry _ _ H)].
Qed.
Lemma empty_good N : good N (mkDict [] None).
Proof.
  constructor; cbn; try discriminate; try tauto; try apply incl_nil_l; constructor.
Qed.
Lemma chain_good N l : (forall d, In d l -> good N d) -> good N (chain l).
Proof.
  induction l as [|d l IH]; intros H; cbn; [apply empty_good|]. apply first_over_good; [apply H; now left|].
  apply IH. intros x X. apply H. now right.
Qed.
