(** Combining attribute sets: drop and keep_first. *)
From Verif Require Import Base BaseFacts CoordModel FrameModel FrameProofs5 ChunkModel CmModel CmProofs
  AttrsModel AttrsSpec AttrsProofs AttrsProofs2 AttrsProofs3 AttrsProofs4 AttrsProofs5.
From Coq Require Import Strings.String Strings.Ascii.
Local Open Scope Z_scope.

(** ** drop *)

Lemma keep_all_coords t : forall a, d_coords (fold_left keep_eq t a) =
  match d_coords a with
  | Some x => if forallb (fun b => match d_coords b with Some y => coval_eqb x y | None => false end) t then Some x else None
  | None => None
  end.
Proof.
  induction t as [|b t IH]; intros a; cbn [fold_left forallb]; [now destruct (d_coords a)|]. rewrite IH. unfold keep_eq. cbn [d_coords].
  destruct (d_coords a) as [x|]; [|reflexivity]. destruct (d_coords b) as [y|]; [|reflexivity]. destruct (coval_eqb x y); reflexivity.
Qed.
Lemma get_cases l a k : family l -> In a l -> k <> "dims"%string ->
  match value_of a k with Some v => if at_default (k, v) then default_of k = Some v else True | None => default_of k = None end.
Proof.
  intros F A K. destruct (value_of a k) as [v|] eqn:E.
  - destruct (at_default (k, v)) eqn:D; [|exact I]. rewrite <- default_of_spec. now apply at_default_spec in D.
  - rewrite value_assoc in E. destruct (assoc k (a_vals a)); [discriminate|exact E].
Qed.

Lemma drop_made name drop s f t r : (forall m, In m t -> compatible name drop f m) -> made name drop s f r -> dropped name drop s f t r.
Proof.
  intros C M. constructor.
  - intros k K D _. destruct (md_vals _ _ _ _ _ M k K) as [(_ & E)|(E & _)]; [exact E|contradiction].
  - intros k m K D Im N. exfalso. apply N, (c_vals _ _ _ _ (C m Im) k K D).
  - intros k K D. destruct (md_vals _ _ _ _ _ M k K) as [(E & _)|(_ & E)]; [contradiction|exact E].
  - intros k K. destruct (md_vals _ _ _ _ _ M k K) as [(_ & E)|(_ & E)]; tauto.
  - intros _. apply M.
  - intros m Im N. exfalso. apply N, (C m Im).
  - intros _ _. split; apply M.
  - intros m Im N. exfalso. apply N, (C m Im).
Qed.

Theorem drop_result l name drop f t : family l -> plain_drop drop ->
  (forall h, In h (held name l) -> numeric h) -> part name l = f :: t ->
  (exists r s, combine_attrs (map MAttrs l) name "drop" drop None = Ok r /\ dropped name drop s f t r
     /\ (name <> EmptyString -> merged (held name l) s))
  \/ (name <> EmptyString /\ clash (held name l) /\ combine_attrs (map MAttrs l) name "drop" drop None = Err AttributeMergeError).
Proof.
  intros F P Nu Pt. assert (L : l <> []).
  { intros ->. unfold part in Pt. destruct (String.eqb name ""); discriminate. }
  destruct (combine_shape l name "drop" drop F P L eq_refl Nu) as [(new & s & R & Q)|Q]; [rewrite Pt; discriminate| |now right].
  left. assert (If : In f (part name l)) by (rewrite Pt; now left). pose proof (in_part _ _ _ If) as Il.
  assert (It : forall m, In m t -> In m (part name l)) by (intros m Im; rewrite Pt; now right).
  assert (Mg : name <> EmptyString -> merged (held name l) s).
  { intros N. destruct R as [R|(_ & _ & _ & _ & R & _)]; [contradiction|exact R]. }
  rewrite Q, Pt. cbn [map]. unfold handle_others. cbn [String.eqb Ascii.eqb Bool.eqb].
  destruct (forallb _ (map (live name drop new) t)) eqn:Fa.
  { cbn [bind]. destruct (made_of l name drop new s f F P R If) as (r & Er & Mr). exists r, s. split; [exact Er|]. split; [|exact Mg].
    apply drop_made; [|exact Mr]. intros m Im. rewrite forallb_forall in Fa.
    apply (live_compatible l name drop new s f m F P R If (It m Im)). apply Fa. apply in_map. exact Im. }
  cbn [bind]. clear Fa. set (d := live name drop new f). set (ts := map (live name drop new) t).
  pose proof (live_good l name drop new s f F P R If) as G. fold d in G.
  assert (Gt : forall m, In m t -> good (all_names l) (live name drop new m)).
  { intros m Im. apply (live_good l name drop new s m F P R (It m Im)). }
  destruct (mk_attrs_good _ _ (family_fair l F) (keep_all_good _ ts d G)) as (r & Er & V & _ & _ & D1 & D2 & Fs & C & _).
  exists r, s. split; [exact Er|]. split; [|exact Mg].
  (* values *)
  assert (Va : forall k, k <> "dims"%string -> value_of r k =
     match assoc k (d_vals d) with
     | Some v => if forallb (fun b => match assoc k (d_vals b) with Some w => scal_eqb v w | None => false end) ts then Some v else default_of k
     | None => default_of k end).
  { intros k K. rewrite (V k K). unfold eff. rewrite (keep_all_assoc _ k ts d G). rewrite default_of_spec.
    destruct (assoc k (d_vals d)) as [v|]; [|reflexivity]. now destruct (forallb _ ts). }
  (* coordinates *)
  assert (Co : coords_of (fold_left keep_eq ts d) =
     if forallb (fun b => match d_coords d, d_coords b with Some x, Some y => coval_eqb x y | None, None => true | _, _ => false end) ts
     then coords_of d else []).
  { unfold coords_of. rewrite keep_all_coords. destruct (d_coords d) as [x|].
    - now destruct (forallb _ ts).
    - now destruct (forallb _ ts). }
  assert (Ceq : forall m, In m t -> (match d_coords d, d_coords (live name drop new m) with Some x, Some y => coval_eqb x y | None, None => true | _, _ => false end) = true <-> coords_eq d (live name drop new m)).
  { intros m Im. unfold coords_eq. destruct (d_coords d), (d_coords (live name drop new m)); split; auto; try discriminate; contradiction. }
  assert (Crest : forall m, In m t -> coords_eq d (live name drop new m) -> same_rest name m f).
  { intros m Im E n N. pose proof (coords_eq_summ _ _ _ n G (Gt m Im) E) as X. unfold d in X. rewrite !(live_coord l name drop new s _ n P R) in X.
    rewrite (not_merged name n N) in X.
    destruct (assoc n (a_coords f)) as [s1|] eqn:Q1, (assoc n (a_coords m)) as [s2|] eqn:Q2; try contradiction; [|reflexivity].
    rewrite !mk_summ_short in X.
    + injection X as ->. reflexivity.
    + apply (t_summ _ (proj1 F m (in_part _ _ _ (It m Im))) n s2). now apply assoc_in.
    + apply (t_summ _ (proj1 F f Il) n s1). now apply assoc_in. }
  assert (Cz : a_coords r = [] <-> coords_of (fold_left keep_eq ts d) = []).
  { split; intros Z; [rewrite Z in Fs|rewrite Z in Fs]; cbn in Fs.
    - symmetry in Fs. now apply map_eq_nil in Fs.
    - now apply map_eq_nil in Fs. }
  assert (Cgone : forall m, In m t -> ~ same_rest name m f -> a_coords r = []).
  { intros m Im N. apply Cz. rewrite Co. destruct (forallb _ ts) eqn:X; [|reflexivity]. exfalso. apply N.
    rewrite forallb_forall in X. apply (Crest m Im), (Ceq m Im). apply X. apply in_map. exact Im. }
  assert (Dm : assoc "dims"%string (d_vals (fold_left keep_eq ts d)) =
     if forallb (fun m => String.eqb (a_dims m) (a_dims f)) t then (if String.eqb (a_dims f) "" then None else Some (AStr (a_dims f))) else None).
  { rewrite (keep_all_assoc _ _ ts d G). unfold d. rewrite (live_dims l name drop new f F P Il).
    destruct (String.eqb_spec (a_dims f) "") as [Z|Z]; [now destruct (forallb _ t)|].
    replace (forallb _ ts) with (forallb (fun m => String.eqb (a_dims m) (a_dims f)) t); [reflexivity|].
    unfold ts. clear - F P Z It. induction t as [|m t IH]; [reflexivity|]. cbn [map forallb]. rewrite IH by (intros x X; apply It; now right). f_equal.
    rewrite (live_dims l name drop new m F P (in_part _ _ _ (It m (or_introl eq_refl)))).
    destruct (String.eqb_spec (a_dims m) "") as [Y|Y].
    - rewrite Y. destruct (String.eqb_spec "" (a_dims f)); congruence.
    - cbn [scal_eqb]. apply String.eqb_sym. }
  constructor.
  - intros k K D A. rewrite (Va k K). unfold d. rewrite (live_of_get l name drop new f k F Il K). apply mem_false in D. rewrite D.
    pose proof (get_cases l f k F Il K) as Gc. destruct (value_of f k) as [v|] eqn:Ef; [|exact Gc].
    destruct (at_default (k, v)) eqn:Ad; [exact Gc|].
    assert (X : forallb (fun b => match assoc k (d_vals b) with Some w => scal_eqb v w | None => false end) ts = true).
    { apply forallb_forall. intros b B. apply in_map_iff in B. destruct B as (m & <- & Im).
      rewrite (live_of_get l name drop new m k F (in_part _ _ _ (It m Im)) K), D. destruct (A m Im) as (Em & Nv). rewrite <- Em, Ad.
      apply scal_eqb_spec. split; [reflexivity|congruence]. }
    now rewrite X.
  - intros k m K D Im N. rewrite (Va k K). destruct (assoc k (d_vals d)) as [v|] eqn:Ed; [|reflexivity].
    match goal with |- (if ?b then _ else _) = _ => destruct b eqn:X end; [|reflexivity]. exfalso. apply N. rewrite forallb_forall in X.
    specialize (X (live name drop new m)).
    apply mem_false in D. pose proof (live_eff l name drop new f k F Il K) as Ef. rewrite D in Ef. rewrite <- Ef.
    pose proof (live_eff l name drop new m k F (in_part _ _ _ (It m Im)) K) as Em. rewrite D in Em. rewrite <- Em.
    unfold eff. fold d. rewrite Ed. specialize (X (in_map _ _ _ Im)). cbn beta in X.
    destruct (assoc k (d_vals (live name drop new m))) as [w|]; [|discriminate]. apply scal_eqb_spec in X. destruct X as (-> & _). now left.
  - intros k K D. rewrite (Va k K). unfold d. rewrite (live_of_get l name drop new f k F Il K). apply mem_In' in D. now rewrite D.
  - intros k K. rewrite (Va k K). unfold d. rewrite (live_of_get l name drop new f k F Il K). destruct (mem k drop); [now right|].
    destruct (value_of f k) as [v|]; [|now right]. destruct (at_default (k, v)); [now right|]. match goal with |- (if ?b then _ else _) = _ \/ _ => destruct b end; tauto.
  - intros A. assert (X : forallb (fun m => String.eqb (a_dims m) (a_dims f)) t = true).
    { apply forallb_forall. intros m Im. apply String.eqb_eq. auto. }
    rewrite X in Dm. destruct (String.eqb_spec (a_dims f) "") as [Z|Z]; [|now apply D1].
    rewrite (D2 Dm). pose proof (t_dims _ (proj1 F f Il) Z) as Cn.
    assert (Nn : name = EmptyString).
    { destruct (string_dec name ""); [assumption|]. pose proof (part_in_name name l f n If) as I. rewrite Cn in I. destruct I. }
    rewrite Co. replace (coords_of d) with (@nil (string * sdict)); [rewrite Z; now destruct (forallb _ ts)|].
    unfold d, live, placed. rewrite Nn. cbn [String.eqb]. unfold coords_of. rewrite part_coords by exact P. unfold dump_short. cbn [d_coords]. now rewrite Cn.
  - intros m Im N. assert (X : forallb (fun m => String.eqb (a_dims m) (a_dims f)) t = false).
    { apply Bool.not_true_iff_false. intros X. rewrite forallb_forall in X. apply N. apply String.eqb_eq. auto. }
    rewrite X in Dm. rewrite (D2 Dm), Fs. reflexivity.
  - intros A So. assert (X : coords_of (fold_left keep_eq ts d) = coords_of d).
    { rewrite Co. replace (forallb _ ts) with true; [reflexivity|]. symmetry. apply forallb_forall. intros b B.
      apply in_map_iff in B. destruct B as (m & <- & Im). apply (Ceq m Im).
      apply (rest_coords_eq l name drop new s f m F P R If (It m Im) (A m Im) So). }
    split.
    + intros n N. rewrite C, X. unfold d. rewrite (live_coord l name drop new s f n P R), (not_merged name n N).
      destruct (assoc n (a_coords f)) as [s'|] eqn:Y; [|reflexivity].
      rewrite mk_summ_short; [reflexivity|]. apply (t_summ _ (proj1 F f Il) n s'). now apply assoc_in.
    + intros N. rewrite C, X. unfold d. rewrite (live_coord l name drop new s f name P R), String.eqb_refl.
      destruct (String.eqb_spec name ""); [contradiction|]. cbn [andb negb].
      destruct R as [R|(_ & _ & _ & -> & _)]; [contradiction|reflexivity].
  - exact Cgone.
Qed.

(** ** keep_first *)

Lemma chain_assoc k pre d post : (forall x, In x pre -> assoc k (d_vals x) = None) -> forall v, assoc k (d_vals d) = Some v ->
  assoc k (d_vals (chain (pre ++ d :: post))) = Some v.
Proof.
  intros H v E. induction pre as [|x pre IH]; cbn [app chain fold_right].
  - rewrite first_over_assoc, E. reflexivity.
  - rewrite first_over_assoc, (H x (or_introl eq_refl)). apply IH. intros y Y. apply H. now right.
Qed.
Lemma chain_none k l : (forall x, In x l -> assoc k (d_vals x) = None) -> assoc k (d_vals (chain l)) = None.
Proof.
  intros H. induction l as [|x l IH]; cbn [chain fold_right]; [reflexivity|].
  rewrite first_over_assoc, (H x (or_introl eq_refl)). apply IH. intros y Y. apply H. now right.
Qed.

Theorem keep_first_result l name drop f t : family l -> plain_drop drop ->
  (forall h, In h (held name l) -> numeric h) -> part name l = f :: t ->
  (exists r s, combine_attrs (map MAttrs l) name "keep_first" drop None = Ok r /\ first_kept name drop s f t r
     /\ (name <> EmptyString -> merged (held name l) s))
  \/ (name <> EmptyString /\ clash (held name l) /\ combine_attrs (map MAttrs l) name "keep_first" drop None = Err AttributeMergeError).
Proof.
  intros F P Nu Pt. assert (L : l <> []).
  { intros ->. unfold part in Pt. destruct (String.eqb name ""); discriminate. }
  destruct (combine_shape l name "keep_first" drop F P L eq_refl Nu) as [(new & s & R & Q)|Q]; [rewrite Pt; discriminate| |now right].
  left. assert (If : In f (part name l)) by (rewrite Pt; now left). pose proof (in_part _ _ _ If) as Il.
  assert (Mg : name <> EmptyString -> merged (held name l) s).
  { intros N. destruct R as [R|(_ & _ & _ & _ & R & _)]; [contradiction|exact R]. }
  rewrite Q. unfold handle_others. cbn [String.eqb Ascii.eqb Bool.eqb bind].
  assert (G : good (all_names l) (chain (map (live name drop new) (part name l)))).
  { apply chain_good. intros d D. apply in_map_iff in D. destruct D as (a & <- & A). apply (live_good l name drop new s a F P R A). }
  destruct (mk_attrs_good _ _ (family_fair l F) G) as (r & Er & V & _ & _ & D1 & D2 & Fs & C & _).
  exists r, s. split; [exact Er|]. split; [|exact Mg].
  assert (Sn : forall a k, In a (part name l) -> k <> "dims"%string -> value_of a k = default_of k -> assoc k (d_vals (live name drop new a)) = None).
  { intros a k A K E. rewrite (live_of_get l name drop new a k F (in_part _ _ _ A) K), E. destruct (mem k drop); [reflexivity|].
    destruct (default_of k) as [v|] eqn:Dk; [|reflexivity]. now rewrite default_at. }
  assert (Ss : forall a k, In a (part name l) -> k <> "dims"%string -> ~ In k drop -> value_of a k <> default_of k ->
     exists v, value_of a k = Some v /\ assoc k (d_vals (live name drop new a)) = Some v).
  { intros a k A K D E. rewrite (live_of_get l name drop new a k F (in_part _ _ _ A) K). apply mem_false in D. rewrite D.
    pose proof (get_cases l a k F (in_part _ _ _ A) K) as Gc. destruct (value_of a k) as [v|]; [|congruence].
    destruct (at_default (k, v)); [congruence|]. eauto. }
  constructor.
  - intros k pre m post K D Sp Hp Hm. rewrite <- Pt in Sp.
    destruct (Ss m k) as (v & Ev & Av); [rewrite Sp; apply in_app_iff; right; now left|exact K|exact D|exact Hm|].
    rewrite (V k K). unfold eff. rewrite Sp, map_app. cbn [map]. rewrite (chain_assoc k _ _ _) with (v := v); [now rewrite Ev| |exact Av].
    intros x X. apply in_map_iff in X. destruct X as (a & <- & A). apply Sn; [rewrite Sp; apply in_app_iff; now left|exact K|auto].
  - intros k K A. rewrite (V k K). unfold eff. rewrite chain_none; [apply default_of_spec|].
    intros x X. apply in_map_iff in X. destruct X as (a & <- & X). apply Sn; [exact X|exact K|]. apply A. now rewrite <- Pt.
  - intros k K D. rewrite (V k K). unfold eff. rewrite chain_none; [apply default_of_spec|].
    intros x X. apply in_map_iff in X. destruct X as (a & <- & X). rewrite (live_of_get l name drop new a k F (in_part _ _ _ X) K).
    apply mem_In' in D. now rewrite D.
  - intros pre m post Sp Hp Hm. rewrite <- Pt in Sp. apply D1. rewrite Sp, map_app. cbn [map]. apply chain_assoc.
    + intros x X. apply in_map_iff in X. destruct X as (a & <- & X).
      rewrite (live_dims l name drop new a F P (in_part name l a ltac:(rewrite Sp; apply in_app_iff; now left))). now rewrite (Hp a X).
    + rewrite (live_dims l name drop new m F P (in_part name l m ltac:(rewrite Sp; apply in_app_iff; right; now left))).
      destruct (String.eqb_spec (a_dims m) ""); [contradiction|reflexivity].
  - intros Nc. assert (X : coords_of (chain (map (live name drop new) (part name l))) = coords_of (live name drop new f)).
    { rewrite Pt. cbn [map chain fold_right]. unfold coords_of, first_over. cbn [d_coords].
      destruct (d_coords (live name drop new f)) eqn:Z; [reflexivity|]. exfalso.
      unfold live, placed in Z. destruct (String.eqb name "").
      - rewrite part_coords in Z by exact P. unfold dump_short in Z. cbn [d_coords] in Z. destruct (a_coords f); [contradiction|discriminate].
      - unfold put_coord in Z. destruct new; discriminate. }
    split.
    + intros n N. rewrite C, X. rewrite (live_coord l name drop new s f n P R), (not_merged name n N).
      destruct (assoc n (a_coords f)) as [s'|] eqn:Y; [|reflexivity].
      rewrite mk_summ_short; [reflexivity|]. apply (t_summ _ (proj1 F f Il) n s'). now apply assoc_in.
    + intros N. rewrite C, X. rewrite (live_coord l name drop new s f name P R), String.eqb_refl.
      destruct (String.eqb_spec name ""); [contradiction|]. cbn [andb negb].
      destruct R as [R|(_ & _ & _ & -> & _)]; [contradiction|reflexivity].
Qed.
