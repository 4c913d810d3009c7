(** Lemmas behind MergeProps.v: the merged manager. *)
From Verif Require Import Base BaseFacts CoordModel CoordSpec CoordProofs CoordProofs2 CoordProofs5 NdModel NdSpec NdProofs
  FrameModel FrameProofs5 ChunkModel CmModel CmSpec CmProofs CmProofs2 CmProofs4 FourierProofs2 MergeModel MergeSpec MergeProofs.
From Coq Require Import Strings.String ZifyBool Sorting.Permutation Sorting.Sorted.
Ltac Zify.zify_post_hook ::= Z.div_mod_to_equations.
Local Open Scope Z_scope.
Local Open Scope list_scope.

Lemma shared_dec cms n : cms <> [] -> (exists ds, shared cms n ds) \/ (forall ds, ~ shared cms n ds).
Proof.
  destruct cms as [|c t]; [congruence|]. intros _. destruct (assoc n (cm_dmap c)) as [ds|] eqn:E.
  - assert (Dc : forall l, (forall cm, In cm l -> assoc n (cm_dmap cm) = Some ds) \/
                           exists cm, In cm l /\ assoc n (cm_dmap cm) <> Some ds).
    { induction l as [|x l IH]; [left; intros cm []|].
      destruct (assoc n (cm_dmap x)) as [ds'|] eqn:Ex; [destruct (list_eq_dec string_dec ds' ds) as [->|Q]|].
      - destruct IH as [IH|(cm & I & N)]; [left; intros cm [<-|I]; [exact Ex|apply IH, I]|right; exists cm; split; [right; exact I|exact N]].
      - right. exists x. split; [left; reflexivity|]. rewrite Ex. congruence.
      - right. exists x. split; [left; reflexivity|]. rewrite Ex. discriminate. }
    destruct (Dc (c :: t)) as [H|(cm & I & N)]; [left; exists ds; exact H|right].
    intros ds' S. assert (ds' = ds) by (rewrite (S c (or_introl eq_refl)) in E; congruence). subst.
    apply N, S, I.
  - right. intros ds S. rewrite (S c (or_introl eq_refl)) in E. discriminate.
Qed.
Lemma shared_fun cms n ds ds' : cms <> [] -> shared cms n ds -> shared cms n ds' -> ds = ds'.
Proof.
  destruct cms as [|c t]; [congruence|]. intros _ S S'. pose proof (S c (or_introl eq_refl)) as E.
  rewrite (S' c (or_introl eq_refl)) in E. congruence.
Qed.

(** ** Least values *)
Lemma fold_min_spec t : forall x, let m := fold_left Z.min t x in (m = x \/ In m t) /\ m <= x /\ forall y, In y t -> m <= y.
Proof.
  induction t as [|z t IH]; intros x; cbn [fold_left]; [cbn; split; [auto|split; [lia|tauto]]|].
  destruct (IH (Z.min x z)) as (A & B & C). cbv zeta in *. split; [|split].
  - destruct A as [A|A]; [|right; right; exact A]. rewrite A.
    destruct (Z.le_gt_cases x z); [left; lia|right; left; lia].
  - lia.
  - intros y [<-|I]; [lia|apply C, I].
Qed.
Lemma start_least d cm : values_of d cm <> [] -> is_least (start_of d cm) (values_of d cm).
Proof.
  unfold start_of. destruct (values_of d cm) as [|x t]; [congruence|]. intros _.
  destruct (fold_min_spec t x) as (A & B & C). split.
  - destruct A as [A|A]; [left; symmetry; exact A|right; exact A].
  - intros y [<-|I]; [exact B|apply C, I].
Qed.
Lemma wf_ints_some c : wf_coord c -> concrete c -> c_ints c <> [].
Proof.
  intros W C E. pose proof (c_ints_len c (wf_okc _ W) C) as L. rewrite E in L. cbn in L.
  destruct c as [r|k v|k v|n]; cbn [wf_coord concrete c_ints c_len] in *.
  - destruct W as (_ & H & _). lia.
  - destruct W; congruence.
  - congruence.
  - destruct C.
Qed.

Definition dimc (d : string) (cm : cman) : coord :=
  match assoc d (cm_coords cm) with Some (M1 c) => c | _ => CPart 0 end.
Lemma dim_min_ok D dim k cms cm : joinable D dim k cms -> In cm cms ->
  dim_min dim cm = Ok (start_of dim cm, cm) /\ dim_coord dim cm = Ok (dimc dim cm) /\
  c_ints (dimc dim cm) = values_of dim cm /\ c_kind (dimc dim cm) = k /\
  assoc dim (cm_coords cm) = Some (M1 (dimc dim cm)) /\ wf_coord (dimc dim cm) /\ concrete (dimc dim cm).
Proof.
  intros J I. destruct (jn_vals _ _ _ _ J _ I) as (c & E & C & K).
  assert (W : wf_coord c) by (apply (wf_vals _ (jn_wf _ _ _ _ J _ I) _ _ E)).
  assert (V : values_of dim cm = c_ints c) by (unfold values_of; rewrite E; reflexivity).
  unfold dim_min, dim_coord, dimc. rewrite E, V. repeat split; auto.
  rewrite (c_min_least c (start_of dim cm) W C); [reflexivity|]. rewrite <- V. apply start_least.
  rewrite V. apply wf_ints_some; assumption.
Qed.

(** ** Sorting two lists alike *)
Lemma insert_key_rel {B C} (R : B -> C -> Prop) k x y : forall l l', R x y ->
  Forall2 (fun a b => fst a = fst b /\ R (snd a) (snd b)) l l' ->
  Forall2 (fun a b => fst a = fst b /\ R (snd a) (snd b)) (insert_key k x l) (insert_key k y l').
Proof.
  intros l l' H F. induction F as [|[j a] [j' b] l l' [E Ra] F IH]; cbn [insert_key].
  - repeat constructor; assumption.
  - cbn in E. subst j'. destruct (k <=? j); constructor; cbn; auto.
Qed.
Lemma sort_keyed_rel {B C} (R : B -> C -> Prop) l l' :
  Forall2 (fun a b => fst a = fst b /\ R (snd a) (snd b)) l l' ->
  Forall2 R (map snd (sort_keyed l)) (map snd (sort_keyed l')).
Proof.
  intros F. assert (G : Forall2 (fun a b => fst a = fst b /\ R (snd a) (snd b)) (sort_keyed l) (sort_keyed l')).
  { induction F as [|[k x] [k' y] l l' [E H] F IH]; [constructor|]. cbn in E, H. subst k'.
    unfold sort_keyed in *. cbn [fold_right fst snd]. apply insert_key_rel; assumption. }
  clear F. induction G as [|a b s t [_ H] G IH]; constructor; assumption.
Qed.

Definition in_order (dim : string) (cms : list cman) : list cman :=
  map snd (sort_keyed (map (fun cm => (start_of dim cm, cm)) cms)).
Lemma in_order_stable dim cms : stable_by (start_of dim) cms (in_order dim cms).
Proof. apply sort_keyed_stable. Qed.
Lemma in_order_In dim cms cm : In cm (in_order dim cms) <-> In cm cms.
Proof.
  destruct (in_order_stable dim cms) as (P & _). split; apply Permutation_in; [exact P|symmetry; exact P].
Qed.

(** ** Association lists *)
Lemma assoc_concat_single {B} (g : string -> list (string * B)) n : forall l, NoDup l ->
  (forall x, In x l -> g x = [] \/ exists v, g x = [(x, v)]) ->
  assoc n (List.concat (map g l)) = if mem n l then assoc n (g n) else None.
Proof.
  induction l as [|x l IH]; intros N H; [reflexivity|]. inversion N as [|? ? Nx Nl]; subst.
  cbn [map List.concat mem existsb].
  assert (IH' := IH Nl (fun y J => H y (or_intror J))). clear IH.
  destruct (String.eqb_spec n x) as [Q|Q].
  - subst x. cbn [orb]. assert (mem n l = false) as Mn by (apply mem_false, Nx). rewrite Mn in IH'.
    destruct (H n (or_introl eq_refl)) as [E|[v E]]; rewrite E; cbn [app assoc].
    + rewrite IH'. reflexivity.
    + rewrite String.eqb_refl. reflexivity.
  - cbn [orb]. fold (mem n l). rewrite <- IH'. destruct (H x (or_introl eq_refl)) as [E|[v E]]; rewrite E; cbn [app assoc]; [reflexivity|].
    destruct (String.eqb_spec n x); [contradiction|reflexivity].
Qed.
Lemma keys_concat_single {B} (g : string -> list (string * B)) : forall l, NoDup l ->
  (forall x, In x l -> g x = [] \/ exists v, g x = [(x, v)]) ->
  NoDup (map fst (List.concat (map g l))) /\ (forall x, In x (map fst (List.concat (map g l))) -> In x l).
Proof.
  induction l as [|x l IH]; intros N H; [split; [constructor|intros ? []]|]. inversion N as [|? ? Nx Nl]; subst.
  destruct (IH Nl (fun y J => H y (or_intror J))) as [A B']. cbn [map List.concat].
  destruct (H x (or_introl eq_refl)) as [E|[v E]]; rewrite E; cbn [app map fst].
  - split; [exact A|]. intros y J. right. apply B', J.
  - split; [constructor; [intros J; apply Nx, B', J|exact A]|]. intros y [<-|J]; [left; reflexivity|right; apply B', J].
Qed.
Lemma assoc_app2 {B} n (a b : list (string * B)) :
  assoc n (a ++ b) = match assoc n a with Some v => Some v | None => assoc n b end.
Proof. induction a as [|[k v] a IH]; cbn; [reflexivity|]. destruct (String.eqb n k); auto. Qed.
Lemma assoc_const {B} n (v : B) l : assoc n (map (fun x => (x, v)) l) = if mem n l then Some v else None.
Proof.
  induction l as [|x l IH]; [reflexivity|]. cbn [map assoc mem existsb]. fold (mem n l).
  destruct (String.eqb_spec n x); [reflexivity|exact IH].
Qed.

(** An array argument is as good as a coordinate of these values. *)
Lemma coord_items_same dims kw kw' :
  Forall2 (fun e e' => fst e = fst e' /\ coord_item dims e = coord_item dims e') kw kw' ->
  forall acc, coord_items dims kw acc = coord_items dims kw' acc.
Proof.
  induction 1 as [|e e' kw kw' [E1 E2] F IH]; intros acc; [reflexivity|]. cbn [coord_items].
  rewrite E2, E1. destruct (coord_item dims e') as [[[m ds] new]|]; [|reflexivity]. cbn [bind].
  destruct acc as [[c d] nd]. apply IH.
Qed.
Lemma coord_item_array dims n ds k v :
  coord_item dims (n, KTuple ds (VArr k v)) = coord_item dims (n, KTuple ds (VCoord (M1 (CArr k v)))).
Proof. reflexivity. Qed.
Lemma get_cm_array a l ds k v D :
  get_cm (a ++ map (fun n => (n, KTuple ds (VArr k v))) l) (Some D) None =
  get_cm (a ++ map (fun n => (n, KTuple ds (VCoord (M1 (CArr k v))))) l) (Some D) None.
Proof.
  unfold get_cm, coord_dim_map. erewrite coord_items_same; [reflexivity|].
  apply Forall2_app.
  - clear. induction a; constructor; auto.
  - clear. induction l as [|n l IH]; constructor; [|exact IH]. split; [reflexivity|apply coord_item_array].
Qed.
