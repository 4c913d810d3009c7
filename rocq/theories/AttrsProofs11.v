(** PatchAttrs: reading coordinate fields, and renaming a dimension. *)
From Verif Require Import Base BaseFacts CoordModel FrameModel FrameProofs5 ChunkModel CmModel CmProofs
  AttrsModel AttrsSpec AttrsProofs AttrsProofs2 AttrsProofs5 AttrsProofs7 AttrsProofs8 AttrsProofs9 AttrsProofs10.
From Coq Require Import Strings.String Strings.Ascii.
Local Open Scope Z_scope.

Lemma attr_get_value a k : attr_get a k = value_of a k.
Proof. rewrite value_assoc, <- default_of_spec. reflexivity. Qed.
Theorem read_field a n s f : ~ contains "_" n -> n <> "d"%string -> In f flat_fields ->
  value_of a (n ++ "_" ++ f) = None -> assoc n (a_coords a) = Some s -> attr_read a (n ++ "_" ++ f) = Ok (field_of s f).
Proof.
  intros N Nd If V As. unfold attr_read. rewrite attr_get_value, V. unfold split_us. cbn [append]. rewrite split_app by exact N. rewrite field_word by exact If.
  destruct (String.eqb_spec n "d"); [contradiction|]. rewrite As. destruct If as [<-|[<-|[<-|[<-|[<-|[]]]]]]; reflexivity.
Qed.

Lemma replace_first_ok o n l : In o l -> exists r, replace_first o n l = Ok r /\ zlen r = zlen l /\ (forall x, In x r -> x = n \/ In x l) /\ r <> [].
Proof.
  induction l as [|x l IH]; [intros []|]. cbn [replace_first]. destruct (String.eqb_spec o x) as [->|N].
  - intros _. exists (n :: l). split; [reflexivity|]. split; [unfold zlen; cbn; reflexivity|]. split; [|discriminate]. intros y [<-|H]; [now left|right; now right].
  - intros [->|H]; [contradiction|]. destruct (IH H) as (r & -> & L & I & _). exists (x :: r). split; [reflexivity|]. split; [unfold zlen in *; cbn; lia|]. split; [|discriminate].
    intros y [<-|Y]; [right; now left|]. destruct (I y Y); [now left|right; now right].
Qed.
Lemma replace_first_nth o n l r : replace_first o n l = Ok r -> NoDup l ->
  map (fun x => if String.eqb x o then n else x) l = r.
Proof.
  revert r. induction l as [|x l IH]; intros r; [discriminate|]. cbn [replace_first map]. rewrite (String.eqb_sym o x). destruct (String.eqb_spec x o) as [->|N].
  - intros [= <-] ND. inversion ND; subst. f_equal. rewrite <- (map_id l) at 2. apply map_ext_in. intros y Y. destruct (String.eqb_spec y o) as [->|]; [contradiction|reflexivity].
  - intros H ND. inversion ND; subst. destruct (replace_first o n l) as [r'|] eqn:R; [|discriminate]. cbn [bind] in H. injection H as <-. f_equal. now apply IH.
Qed.

Theorem rename_one a o n : family [a] -> NoDup (dim_tuple a) -> In o (dim_tuple a) -> ~ In n (names_of a) -> n <> "dims"%string -> n <> "coords"%string ->
  (forall k, In k (map fst (a_vals a)) -> ~ starts n k /\ k <> ("d_" ++ n)%string) ->
  exists r, rename_dims a [(o, n)] = Ok r
    /\ (forall k, k <> "dims"%string -> value_of r k = value_of a k)
    /\ a_dims r = str_join "," (map (fun x => if String.eqb x o then n else x) (dim_tuple a))
    /\ assoc n (a_coords r) = assoc o (a_coords a) /\ assoc o (a_coords r) = None
    /\ forall m, m <> o -> m <> n -> assoc m (a_coords r) = assoc m (a_coords a).
Proof.
  intros F NDd Io Nn N1 N2 An. assert (T : tidy a) by (apply F; now left).
  assert (Ap : forall k, In k (map fst (a_vals a)) -> apart (names_of a) k) by (intros k K; apply (proj2 F a a); [now left|now left|exact K]).
  assert (Dn : a_dims a <> EmptyString). { intros E. unfold dim_tuple in Io. rewrite E in Io. destruct Io. }
  destruct (short_vals a T) as (ND & D & _ & I).
  destruct (replace_first_ok o n _ Io) as (ds & R & _ & Ids & Nds). pose proof (replace_first_nth o n _ _ R NDd) as Rm.
  unfold rename_dims. cbn [filter fst]. assert (M : mem o (dim_tuple a) = true) by now apply mem_In'. rewrite M. cbn [fold_left fst snd bind]. rewrite R. cbn [bind].
  set (sc := map (fun e => (fst e, summ_short (snd e))) (a_coords a)).
  set (d := mkDict _ _).
  assert (Hon : o <> n) by (intros ->; apply Nn, dims_in_names, Io).
  assert (Cs : coords_of d = move_coord o n sc).
  { unfold d, coords_of, sc. cbn [d_coords]. unfold dump_short. cbn [d_coords]. destruct (a_coords a) eqn:E; cbn [map]; [reflexivity|]. reflexivity. }
  assert (Ksc : map fst sc = map fst (a_coords a)) by apply map_fst_map.
  assert (NDs : NoDup (map fst sc)) by (rewrite Ksc; apply (t_coords _ T)).
  assert (Nsc : ~ In n (map fst sc)) by (rewrite Ksc; intros H; apply Nn; unfold names_of; apply in_or_app; now left).
  assert (Mv : forall m, assoc m (move_coord o n sc) = if String.eqb m n then assoc o sc else if String.eqb m o then None else assoc m sc).
  { intros m. unfold move_coord. destruct (assoc o sc) as [x|] eqn:Ao.
    - rewrite assoc_assoc_set, assoc_del. destruct (String.eqb_spec m n); [reflexivity|]. reflexivity.
    - rewrite assoc_del. destruct (String.eqb_spec m n) as [->|]; [reflexivity|]. destruct (String.eqb_spec m o) as [->|]; [exact Ao|reflexivity]. }
  assert (Km : forall m, In m (map fst (move_coord o n sc)) -> m = n \/ In m (map fst sc)).
  { intros m H. apply assoc_In in H. destruct H as (v & H). rewrite Mv in H. destruct (String.eqb_spec m n); [now left|right]. apply assoc_In.
    destruct (String.eqb m o); [discriminate|]. now exists v. }
  assert (G : good (n :: names_of a) d).
  { constructor.
    - apply NoDup_assoc_set, ND.
    - intros k K Nk. unfold d in K. cbn [d_vals] in K. apply In_assoc_set in K. destruct K as [K|K]; [congruence|].
      specialize (I k K Nk). destruct (Ap k I) as (A1 & A2). split; [exact A1|]. intros c [<-|C]; [now apply An|now apply A2].
    - unfold d. cbn [d_vals]. intros K. apply In_assoc_set in K. destruct K as [K|K]; [discriminate|]. specialize (I _ K ltac:(discriminate)). now apply (proj2 (t_own _ T)).
    - unfold d. cbn [d_coords]. intros x c. destruct (d_coords (dump_short a)); discriminate.
    - right. exists (ASeq ds), ds. unfold d. cbn [d_vals]. rewrite assoc_assoc_set, String.eqb_refl. split; [reflexivity|]. split; [now split|].
      intros x X. destruct (Ids x X) as [->|H]; [now left|right; now apply dims_in_names].
    - rewrite Cs. intros m H. destruct (Km m H) as [->|H']; [now left|right]. unfold names_of. apply in_or_app. left. now rewrite <- Ksc.
    - rewrite Cs. unfold move_coord. destruct (assoc o sc); [apply NoDup_assoc_set|]; now apply NoDup_filter_fst.
    - rewrite Cs. intros m x H. assert (E : exists m', assoc m' sc = Some x).
      { apply in_assoc in H. 2:{ unfold move_coord. destruct (assoc o sc); [apply NoDup_assoc_set|]; now apply NoDup_filter_fst. }
        rewrite Mv in H. destruct (String.eqb m n); [now exists o|]. destruct (String.eqb m o); [discriminate|]. now exists m. }
      destruct E as (m' & E). unfold sc in E. rewrite assoc_map_snd in E. destruct (assoc m' (a_coords a)) as [s|] eqn:As; [|discriminate]. injection E as <-.
      apply entry_short. apply (t_summ _ T m'), assoc_in, As. }
  assert (Fn : fair_names (n :: names_of a)) by (destruct (fair_of a T) as (X1 & X2); split; intros [H|H]; auto).
  destruct (mk_attrs_good _ d Fn G) as (r & E & V & _ & _ & _ & _ & _ & C & Dd). exists r. split; [exact E|].
  assert (Cr : forall m, assoc m (a_coords r) = if String.eqb m n then assoc o (a_coords a) else if String.eqb m o then None else assoc m (a_coords a)).
  { intros m. rewrite C, Cs, Mv. unfold sc. rewrite !assoc_map_snd.
    assert (Q : forall x, match match assoc x (a_coords a) with Some v => Some (summ_short v) | None => None end with
      | Some y => match mk_summ y with Ok s => Some s | Err _ => None end | None => None end = assoc x (a_coords a)).
    { intros x. destruct (assoc x (a_coords a)) as [s|] eqn:As; [|reflexivity]. rewrite mk_summ_short; [reflexivity|]. apply (t_summ _ T x), assoc_in, As. }
    destruct (String.eqb m n); [apply Q|]. destruct (String.eqb m o); [reflexivity|apply Q]. }
  split; [|split; [|split; [|split]]].
  - intros k K. rewrite (V k K), <- (eff_short a k T K). unfold eff, d. cbn [d_vals]. rewrite assoc_assoc_set. destruct (String.eqb_spec k "dims"); [contradiction|reflexivity].
  - rewrite (Dd ds); [now rewrite Rm|]. unfold d. cbn [d_vals]. now rewrite assoc_assoc_set, String.eqb_refl.
  - now rewrite Cr, String.eqb_refl.
  - rewrite Cr. destruct (String.eqb_spec o n); [contradiction|]. now rewrite String.eqb_refl.
  - intros m Hmo Hmn. rewrite Cr. destruct (String.eqb_spec m n); [contradiction|]. destruct (String.eqb_spec m o); [contradiction|reflexivity].
Qed.

Lemma put_changed a n s r : In n (map fst (a_coords a)) -> same_attrs (put a n s) r -> only_coord a n s r.
Proof.
  intros I S. constructor.
  - intros k K. exact (sa_vals _ _ S k K).
  - exact (sa_dims _ _ S).
  - rewrite (sa_coords _ _ S). now apply put_names.
  - rewrite (sa_coords _ _ S). unfold put. cbn [a_coords]. now rewrite assoc_assoc_set, String.eqb_refl.
  - intros m M. rewrite (sa_coords _ _ S). unfold put. cbn [a_coords]. rewrite assoc_assoc_set. destruct (String.eqb_spec m n); [contradiction|reflexivity].
Qed.
Theorem update_field' a n s f v pre : family [a] -> a_dims a <> EmptyString -> flat_names (dim_tuple a) -> In n (dim_tuple a) ->
  assoc n (a_coords a) = Some s -> In f ["min"; "max"; "step"; "units"]%string ->
  pre = [("dims"%string, AStr (a_dims a))] \/ (pre = [] /\ (f = "units"%string \/ dim_tuple a = [n])) ->
  exists r, attrs_update a (mkDict (pre ++ [((n ++ "_" ++ f)%string, v)]) None) = Ok r /\ only_coord a n (with_field s f v) r
    /\ (value_of a (n ++ "_" ++ f) = None -> attr_read r (n ++ "_" ++ f) = Ok v).
Proof.
  intros F Dn Fl I As If P. destruct (update_field a n s f v pre F Dn Fl I As If P) as (r & E & S). exists r. split; [exact E|].
  assert (C : only_coord a n (with_field s f v) r) by (apply put_changed; [apply assoc_In; now exists s|exact S]). split; [exact C|].
  intros V. destruct (proj1 (proj2 Fl) n I) as (_ & N1 & N2). rewrite (read_field r n (with_field s f v) f N1 N2 (or_intror If)).
  - destruct If as [<-|[<-|[<-|[<-|[]]]]]; reflexivity.
  - rewrite (oc_vals _ _ _ _ C); [exact V|]. intros Q. assert (H : contains "_" "dims") by (exists n, f; now rewrite <- Q).
    apply str_contains_spec in H. vm_compute in H. discriminate.
  - apply (oc_coord _ _ _ _ C).
Qed.
Theorem update_nested' a n s m : family [a] -> a_dims a <> EmptyString -> assoc n (a_coords a) = Some s ->
  m <> [] -> (forall f, In f (map fst m) -> In f ["min"; "max"; "step"; "units"]%string) ->
  exists r, attrs_update a (mkDict [] (Some (CDict [(n, m)]))) = Ok r
    /\ only_coord a n (fold_left (fun t e => with_field t (fst e) (snd e)) m s) r.
Proof.
  intros F Dn As Mn Hf. destruct (update_nested a n s m F Dn As Mn Hf) as (r & E & S). exists r. split; [exact E|].
  apply put_changed; [apply assoc_In; now exists s|exact S].
Qed.

(** ** Deciding, for the examples *)
Definition quietb (k : string) : bool := forallb (fun f => negb (str_contains ("_" ++ f) k)) flat_fields.
Lemma quietb_ok k : quietb k = true -> quiet k.
Proof.
  unfold quietb, quiet. rewrite forallb_forall. intros H f I C. specialize (H f I). apply str_contains_spec in C. rewrite C in H. discriminate.
Qed.
Definition clearb (a : attrs) : bool := forallb (apartb (names_of a)) (map fst field_defaults).
Lemma clearb_ok a : clearb a = true -> clear_names a.
Proof. unfold clearb, clear_names. rewrite forallb_forall. intros H k K. apply apartb_ok, H, K. Qed.
Definition flat_namesb (ds : list string) : bool :=
  nodupb ds && forallb (fun d => negb (String.eqb d "") && negb (str_contains "_" d) && negb (String.eqb d "d")) ds
  && forallb (fun d => forallb (fun e => negb (str_prefix d e) || String.eqb d e) ds) ds.
Lemma flat_namesb_ok ds : flat_namesb ds = true -> flat_names ds.
Proof.
  unfold flat_namesb. rewrite !Bool.andb_true_iff, !forallb_forall. intros ((A & B) & C). split; [now apply nodupb_ok|]. split.
  - intros d D. specialize (B d D). rewrite !Bool.andb_true_iff, !Bool.negb_true_iff in B. destruct B as ((B1 & B2) & B3).
    split; [now apply String.eqb_neq|]. split; [|now apply String.eqb_neq]. intros X. apply str_contains_spec in X. congruence.
  - intros d e D E S. specialize (C d D). rewrite forallb_forall in C. specialize (C e E). apply str_prefix_starts in S. rewrite S in C. now apply String.eqb_eq.
Qed.
