(** Lemmas behind FourierProps.v: the coordinates of an inverse transform. *)
From Verif Require Import Base BaseFacts CoordModel CoordSpec CoordProofs NdModel NdSpec NdProofs NdProofs2
  FrameModel FrameProofs5 ChunkModel CmModel CmSpec CmProofs CmProofs2 CmProofs3 CmProofs12 CmProofs13 CmProofs14
  ProcModel ProcSpec FourierModel FourierSpec FourierProofs FourierProofs2 FourierProofs3.
From Coq Require Import Strings.String Strings.Ascii ZifyBool Sorting.Permutation.
Ltac Zify.zify_post_hook ::= Z.div_mod_to_equations.
Local Open Scope Z_scope.
Local Open Scope list_scope.

Lemma rev_last {B} (l : list B) x y t : rev l = y :: t -> l = removelast l ++ [x] -> y = x.
Proof. intros R E. rewrite E, rev_app_distr in R. cbn [rev app] in R. congruence. Qed.

Section IdftCoords.
Variables (cm T : cman) (ds l : list string) (realn : option string) (orig : option cman).
Hypothesis W : wf_cm cm.
Hypothesis ST : all_settled cm.
Hypothesis ND : NoDup ds.
Hypothesis FN : free_names cm ds.
Variables (rg ou : string -> crange).
Hypothesis G : forall d, In d ds -> In d (cm_dims cm) /\ assoc d (cm_coords cm) = Some (M1 (CRange (rg d))) /\ wf_range (rg d).
Hypothesis OR : forall o d, orig = Some o -> In d ds -> assoc d (cm_coords o) = Some (M1 (CRange (ou d))).
Hypothesis TR : transformed cm T ds realn orig.
Hypothesis PL : Permutation ds l.
Variable real : bool.
Variable sh : list Z.
Variables (g : string -> nat) (rf : string -> crange).
Hypothesis GT : forall d, In d ds -> axis_of T (ftn d) = Ok (g (ftn d)).
Hypothesis HS : forall d, In d ds -> nth_error sh (g (ftn d)) = Some (r_len (rg d)) \/ (real = true /\ l = removelast l ++ [d]).

Variable padded : bool.

Lemma in_l d : In d l <-> In d ds.
Proof. split; apply Permutation_in; [apply Permutation_sym|]; exact PL. Qed.
Lemma nd_l : NoDup l.
Proof. eapply Permutation_NoDup; eassumption. Qed.
Lemma ft_not_dim d : In d ds -> ~ In (ftn d) (cm_dims cm).
Proof. intros I J. destruct (wf_dim_coord cm _ W J) as (c & A & _). destruct (FN d I) as (_ & _ & _ & B & _). fold (ftn d) in B. congruence. Qed.
Lemma ft_in_T d : In d ds -> In (ftn d) (cm_dims T).
Proof.
  intros I. rewrite (tr_dims _ _ _ _ _ TR). apply in_map_iff. exists d. rewrite (proj2 (mem_In' d ds) I).
  split; [reflexivity|apply (G d I)].
Qed.
Lemma name_cases n : (exists d, In d ds /\ n = ftn d) \/ In n ds \/ (orig <> None /\ exists d, In d ds /\ n = unpadded_name d) \/
  (~ In n ds /\ forall d, In d ds -> n <> ftn d /\ (orig <> None -> n <> unpadded_name d)).
Proof.
  destruct (in_dec string_dec n (map ftn ds)) as [I|I].
  { left. apply in_map_iff in I. destruct I as (d & <- & I). eauto. }
  destruct (in_dec string_dec n ds) as [J|J]; [auto|]. right; right.
  assert (F : forall d, In d ds -> n <> ftn d) by (intros d Q ->; apply I, in_map, Q).
  destruct orig as [o|].
  - destruct (in_dec string_dec n (map unpadded_name ds)) as [K|K].
    + left. split; [discriminate|]. apply in_map_iff in K. destruct K as (d & <- & K). eauto.
    + right. split; [exact J|]. intros d Q. split; [apply F, Q|]. intros _ ->. apply K, in_map, Q.
  - right. split; [exact J|]. intros d Q. split; [apply F, Q|]. congruence.
Qed.
Lemma mem_fs n : mem n (map ftn l) = true <-> exists d, In d ds /\ n = ftn d.
Proof.
  rewrite mem_In', in_map_iff. split.
  - intros (d & <- & I). exists d. split; [apply in_l, I|reflexivity].
  - intros (d & I & ->). exists d. split; [reflexivity|apply in_l, I].
Qed.
Lemma T_drop n : mem n (map ftn l) = false -> droppedb T (map ftn l) n = false.
Proof.
  intros Q. apply not_true_is_false. rewrite droppedb_spec. intros [I|(xs & x & A & B & C)].
  { apply mem_false in Q. contradiction. }
  apply in_map_iff in C. destruct C as (d & <- & C). apply in_l in C.
  destruct (name_cases n) as [(e & I & ->)|[I|[(O & e & I & ->)|(N1 & N2)]]].
  - assert (mem (ftn e) (map ftn l) = true) by (apply mem_fs; eauto). congruence.
  - destruct (tr_old _ _ _ _ _ TR n I) as [_ D]. rewrite D in A. assert (xs = []) by congruence. subst xs. destruct B.
  - destruct orig as [o|] eqn:Qo; [|congruence]. destruct (tr_orig _ _ _ _ _ TR o e eq_refl I) as [_ D].
    fold (unpadded_name e) in D. rewrite D in A. assert (xs = []) by congruence. subst xs. destruct B.
  - destruct (con_coord _ (wf_con _ (tr_wf _ _ _ _ _ TR)) n xs A) as (m & Qm & _).
    assert (NA : ~ along cm ds n) by (intros AL; pose proof (tr_along _ _ _ _ _ TR n AL); congruence).
    destruct (tr_rest _ _ _ _ _ TR n N1 NA N2) as [_ D]. rewrite D in A.
    destruct (con_coord _ (wf_con _ W) n xs A) as (m' & _ & S & _). apply (ft_not_dim d C), S, B.
Qed.
Lemma d_not_unp d e : In d ds -> In e ds -> d <> unpadded_name e.
Proof.
  intros I J ->. destruct (G _ I) as (_ & A & _). destruct (FN e J) as (_ & _ & _ & _ & B). fold (unpadded_name e) in B. congruence.
Qed.
Lemma d_not_ft d e : In d ds -> In e ds -> d <> ftn e.
Proof.
  intros I J ->. destruct (G _ I) as (_ & A & _). destruct (FN e J) as (_ & _ & _ & B & _). fold (ftn e) in B. congruence.
Qed.

(** ** The keyword list *)
Definition put_back (kw : list (string * kval)) (d : string) : list (string * kval) :=
  let kw := assoc_set d (KTuple [d] (VCoord (M1 (CRange (rg d))))) kw in
  if padded then filter (fun e => negb (String.eqb (fst e) (unpadded_name d))) kw else kw.
Definition trims (k : list string) : list (string * selarg) :=
  if padded then map (fun d => (d, SelPair (Some 0) (Some (r_len (ou d) - r_len (rg d)))))
                     (filter (fun d => r_len (ou d) <? r_len (rg d)) k) else [].

Lemma NoDup_filter_keys {B} (f : string * B -> bool) k : NoDup (map fst k) -> NoDup (map fst (filter f k)).
Proof.
  induction k as [|e t IH]; intros N; [exact N|]. cbn [map] in N. inversion N as [|? ? N1 N2]; subst. cbn [filter].
  destruct (f e); [|apply IH, N2]. cbn [map]. constructor; [|apply IH, N2].
  intros I. apply N1. apply in_map_iff in I. destruct I as (x & Ex & I). apply filter_In in I. rewrite <- Ex. apply in_map, I.
Qed.
Lemma assoc_filter_key {B} u (k : list (string * B)) n :
  assoc n (filter (fun e => negb (String.eqb (fst e) u)) k) = if String.eqb n u then None else assoc n k.
Proof.
  induction k as [|[a v] t IH]; cbn [filter assoc fst]; [destruct (String.eqb n u); reflexivity|].
  destruct (String.eqb_spec a u) as [->|M]; cbn [negb]; cbn [assoc].
  - rewrite IH. destruct (String.eqb_spec n u); reflexivity.
  - rewrite IH. destruct (String.eqb_spec n a) as [->|]; [|reflexivity]. destruct (String.eqb_spec a u); [contradiction|reflexivity].
Qed.
Lemma put_back_assoc kw d n : assoc n (put_back kw d) =
  if padded && String.eqb n (unpadded_name d) then None
  else if String.eqb n d then Some (KTuple [d] (VCoord (M1 (CRange (rg d))))) else assoc n kw.
Proof.
  unfold put_back. destruct padded; cbn [andb]; rewrite ?assoc_filter_key, ?assoc_assoc_set; reflexivity.
Qed.
Lemma put_back_keys kw d : NoDup (map fst kw) -> NoDup (map fst (put_back kw d)).
Proof. intros N. unfold put_back. destruct padded; [apply NoDup_filter_keys|]; apply NoDup_assoc_set, N. Qed.

Lemma idft_fold : forall k, (forall d, In d k -> In d ds) -> NoDup k -> forall kw sz pd, NoDup (map fst kw) ->
  (forall d, In d k -> (exists x, assoc d kw = Some (KTuple x (VCoord (M1 (CRange (rg d)))))) /\
     (padded = true -> exists x, assoc (unpadded_name d) kw = Some (KTuple x (VCoord (M1 (CRange (ou d))))))) ->
  (forall d, In d k -> ~ In d (map fst pd)) ->
  fold_left (fun acc (x : string * nat * crange) =>
      do st <- acc;
      let '(kw, sizes, padding) := st in
      let '(d, ax, _) := x in
      let new := ift_name d in
      match assoc new kw with
      | Some (KTuple _ (VCoord m)) =>
          do n <- m_len m;
          let own := match nth_error sh ax with Some k => n =? k | None => false end in
          let isreal := real && match rev (map ftn l) with l :: _ => String.eqb d l | [] => false end in
          let sizes := if own || isreal then sizes ++ [n] else sizes in
          let kw := assoc_set new (KTuple [new] (VCoord m)) kw in
          if negb padded then Ok (kw, sizes, padding)
          else
            match dict_pop (unpadded_name new) kw with
            | Some (KTuple _ (VCoord u), kw) =>
                do k <- m_len u;
                Ok (kw, sizes,
                    if k - n <? 0 then assoc_set new (SelPair (Some 0) (Some (k - n))) padding else padding)
            | _ => Err KeyError
            end
      | _ => Err Unmodelled
      end) (map (fun d => (ftn d, g (ftn d), rf (ftn d))) k) (Ok (kw, sz, pd)) =
  Ok (fold_left put_back k kw, sz ++ map (fun d => r_len (rg d)) k, pd ++ trims k).
Proof.
  induction k as [|d k IH]; intros S N kw sz pd K C P.
  { cbn [map fold_left]. unfold trims. destruct padded; cbn [filter map]; rewrite !app_nil_r; reflexivity. }
  inversion N as [|? ? N1 N2]; subst. assert (I : In d ds) by (apply S; left; reflexivity).
  cbn [map fold_left]. rewrite ift_name_ft. destruct (C d (or_introl eq_refl)) as [(x & E) CU]. cbn [bind]. rewrite E. cbn [m_len m_shape bind c_len].
  assert (((match nth_error sh (g (ftn d)) with Some k0 => r_len (rg d) =? k0 | None => false end)
     || real && match rev (map ftn l) with l0 :: _ => String.eqb (ftn d) l0 | [] => false end)%bool = true) as ->.
  { destruct (HS d I) as [->|[-> L]]; [rewrite Z.eqb_refl; reflexivity|].
    apply orb_true_iff. right. cbn [andb]. rewrite L, map_app, rev_app_distr. cbn [map rev app]. apply String.eqb_refl. }
  cbv zeta.
  assert (C' : forall e, In e k -> (exists y, assoc e (put_back kw d) = Some (KTuple y (VCoord (M1 (CRange (rg e)))))) /\
     (padded = true -> exists y, assoc (unpadded_name e) (put_back kw d) = Some (KTuple y (VCoord (M1 (CRange (ou e))))))).
  { intros e J. assert (Je : In e ds) by (apply S; right; exact J). destruct (C e (or_intror J)) as [(y & Ey) CUe].
    assert (NE : e <> d) by (intros ->; contradiction). split.
    - exists y. rewrite put_back_assoc. destruct (String.eqb_spec e (unpadded_name d)) as [Q|_]; [destruct (d_not_unp e d Je I Q)|].
      rewrite andb_false_r. destruct (String.eqb_spec e d); [contradiction|exact Ey].
    - intros Pd. destruct (CUe Pd) as (z & Ez). exists z. rewrite put_back_assoc.
      destruct (String.eqb_spec (unpadded_name e) (unpadded_name d)) as [Q|_]; [apply unp_inj in Q; contradiction|].
      rewrite andb_false_r. destruct (String.eqb_spec (unpadded_name e) d) as [Q|_]; [symmetry in Q; destruct (d_not_unp d e I Je Q)|exact Ez]. }
  destruct padded eqn:QP; cbn [negb].
  - destruct (CU eq_refl) as (y & Ey).
    assert (K1 : NoDup (map fst (assoc_set d (KTuple [d] (VCoord (M1 (CRange (rg d))))) kw))) by (apply NoDup_assoc_set, K).
    rewrite (dict_pop_spec _ _ K1), assoc_assoc_set.
    destruct (String.eqb_spec (unpadded_name d) d) as [Q|_]; [symmetry in Q; destruct (d_not_unp d d I I Q)|].
    rewrite Ey. cbn [m_len m_shape bind c_len].
    assert (PB : filter (fun e => negb (String.eqb (fst e) (unpadded_name d))) (assoc_set d (KTuple [d] (VCoord (M1 (CRange (rg d))))) kw) = put_back kw d).
    { unfold put_back. rewrite QP. reflexivity. }
    rewrite PB.
    rewrite (IH (fun e J => S e (or_intror J)) N2); [|apply put_back_keys, K|exact C'|].
    + rewrite <- app_assoc. cbn [app]. f_equal. f_equal.
      unfold trims. rewrite QP. cbn [filter].
      destruct (Z.ltb_spec (r_len (ou d) - r_len (rg d)) 0) as [L|L]; destruct (Z.ltb_spec (r_len (ou d)) (r_len (rg d))) as [L'|L']; try lia.
      * rewrite assoc_set_new by (apply P; left; reflexivity). rewrite <- app_assoc. reflexivity.
      * reflexivity.
    + intros e J X. assert (In e (map fst pd) \/ e = d) as [Y|Y].
      { destruct (r_len (ou d) - r_len (rg d) <? 0); [|auto].
        rewrite assoc_set_new in X by (apply P; left; reflexivity). rewrite map_app in X. apply in_app_or in X.
        destruct X as [X|[X|[]]]; auto. }
      * apply (P e (or_intror J) Y).
      * subst e. contradiction.
  - assert (PB : assoc_set d (KTuple [d] (VCoord (M1 (CRange (rg d))))) kw = put_back kw d).
    { unfold put_back. rewrite QP. reflexivity. }
    rewrite PB. rewrite (IH (fun e J => S e (or_intror J)) N2); [|apply put_back_keys, K|exact C'|intros e J; apply P; right; exact J].
    rewrite <- app_assoc. cbn [app]. f_equal. f_equal. unfold trims. rewrite QP. reflexivity.
Qed.

Lemma put_back_fold k : (forall d, In d k -> In d ds) -> NoDup k -> forall kw, NoDup (map fst kw) ->
  NoDup (map fst (fold_left put_back k kw)) /\
  forall n, assoc n (fold_left put_back k kw) =
    if padded && mem n (map unpadded_name k) then None
    else if mem n k then Some (KTuple [n] (VCoord (M1 (CRange (rg n))))) else assoc n kw.
Proof.
  induction k as [|d k IH]; intros S N kw K; cbn [fold_left].
  { split; [exact K|]. intros n. cbn [map mem existsb]. rewrite andb_false_r. reflexivity. }
  inversion N as [|? ? N1 N2]; subst. assert (I : In d ds) by (apply S; left; reflexivity).
  destruct (IH (fun e J => S e (or_intror J)) N2 (put_back kw d) (put_back_keys kw d K)) as [A B]. split; [exact A|].
  intros n. rewrite B, put_back_assoc. cbn [map]. unfold mem at 3 4. cbn [existsb]. fold (mem n (map unpadded_name k)). fold (mem n k).
  destruct padded; cbn [andb].
  - destruct (String.eqb_spec n (unpadded_name d)) as [Q|Q]; cbn [orb].
    + destruct (mem n (map unpadded_name k)); [reflexivity|]. destruct (mem n k) eqn:Qk; [|reflexivity].
      apply mem_In' in Qk. destruct (d_not_unp n d (S n (or_intror Qk)) I Q).
    + destruct (mem n (map unpadded_name k)); [reflexivity|]. destruct (String.eqb_spec n d) as [->|M]; cbn [orb]; [|reflexivity].
      destruct (mem d k); reflexivity.
  - destruct (String.eqb_spec n d) as [->|M]; cbn [orb]; [|reflexivity]. destruct (mem d k); reflexivity.
Qed.
Hypothesis QPAD : padded = match orig with Some _ => true | None => false end.

Lemma recf_orig o d : orig = Some o -> In d ds -> assoc (unpadded_name d) (cm_coords T) = Some (M1 (CRange (ou d))) /\ assoc (unpadded_name d) (cm_dmap T) = Some [].
Proof.
  intros Q I. destruct (tr_orig _ _ _ _ _ TR o d Q I) as [A B]. fold (unpadded_name d) in A, B. rewrite A. split; [apply (OR o d Q I)|exact B].
Qed.

Lemma idft_coords_ok : exists R,
  idft_coords T padded sh (map (fun d => (ftn d, g (ftn d), rf (ftn d))) l) real =
    Ok (R, map (fun d => r_len (rg d)) l, trims l) /\ restored cm R ds.
Proof.
  unfold idft_coords. cbv zeta. rewrite !map_map. cbn [fst snd].
  change (map (fun x => ftn x) l) with (map ftn l). set (fs := map ftn l) in *.
  pose proof (tr_wf _ _ _ _ _ TR) as WT.
  assert (MF : forall n, mem n fs = true <-> exists d, In d ds /\ n = ftn d) by exact mem_fs.
  assert (NF : NoDup fs).
  { pose proof nd_l as N. unfold fs. clear - N. induction N as [|x t H N IH]; cbn [map]; constructor; [|exact IH].
    intros J. apply in_map_iff in J. destruct J as (y & E & J). apply ftn_inj in E. congruence. }
  assert (FI : forall n, In n fs -> In n (cm_dims T)).
  { intros n I. apply in_map_iff in I. destruct I as (d & <- & I). apply ft_in_T, in_l, I. }
  destruct (disassociate_ok T fs WT NF FI) as (old & E & Wo & Do & Co & Mo).
  { intros n I. apply in_map_iff in I. destruct I as (d & <- & I). apply in_l in I. destruct (FN d I) as (_ & _ & U & _). exact U. }
  rewrite E. cbn [bind]. destruct (as_kwargs_ok old Wo) as (base & EB & KB & AB). rewrite EB. cbn [bind].
  assert (NB : NoDup (map fst base)) by (rewrite KB; apply (wf_ckeys _ Wo)).
  assert (BL : forall n, mem n fs = false -> assoc n base =
      match assoc n (cm_coords T), assoc n (cm_dmap T) with Some m, Some x => Some (KTuple x (VCoord (recf m))) | _, _ => None end).
  { intros n Q. assert (TD : droppedb T fs n = false) by (apply (T_drop n Q)). rewrite AB, Co, Mo, Q, TD. destruct (assoc n (cm_coords T)); reflexivity. }
  assert (BF : forall n, mem n fs = true -> exists c, wf_coord c /\ assoc n base = Some (KTuple [] (VCoord (M1 c)))).
  { intros n Q. rewrite AB, Co, Mo, Q. apply mem_In' in Q. destruct (wf_dim_coord T n WT (FI n Q)) as (c & A & B & _). rewrite A.
    cbn [option_map]. destruct (recf_M1 c (wf_okc _ B)) as (c' & Ec & _ & K). rewrite Ec. exists c'. split; [exact K|reflexivity]. }
  assert (DF : forall d, In d ds -> mem d fs = false).
  { intros d I. apply not_true_is_false. intros Q. apply MF in Q. destruct Q as (e & J & Q). apply (d_not_ft d e I J Q). }
  assert (UF : forall d, mem (unpadded_name d) fs = false).
  { intros d. apply not_true_is_false. intros Q. apply MF in Q. destruct Q as (e & J & Q). symmetry in Q. apply (ftn_unp e d Q). }
  assert (BD : forall d, In d ds -> assoc d base = Some (KTuple [] (VCoord (M1 (CRange (rg d)))))).
  { intros d I. rewrite BL by (apply DF, I). destruct (tr_old _ _ _ _ _ TR d I) as [A B]. destruct (G d I) as (_ & C & _).
    rewrite A, B, C. reflexivity. }
  assert (BU : forall d, padded = true -> In d ds -> assoc (unpadded_name d) base = Some (KTuple [] (VCoord (M1 (CRange (ou d)))))).
  { intros d Q I. assert (exists o, orig = Some o) as (o & Qo) by (rewrite QPAD in Q; destruct orig as [o|]; [exists o; reflexivity|discriminate]).
    destruct (recf_orig o d Qo I) as [A B].
    rewrite BL by (apply UF). rewrite A, B. reflexivity. }
  assert (SL : forall d, In d l -> In d ds) by (intros d; apply in_l).
  pose proof (idft_fold l SL nd_l base [] [] NB) as FO.
  specialize (FO (fun d I => conj (ex_intro _ [] (BD d (SL d I))) (fun Q => ex_intro _ [] (BU d Q (SL d I))))).
  specialize (FO (fun d I X => X)).
  match goal with |- context [fold_left ?F ?a ?b] => replace (fold_left F a b) with
    (Ok (fold_left put_back l base, [] ++ map (fun d => r_len (rg d)) l, [] ++ trims l)) by (symmetry; exact FO) end.
  clear FO. cbn [bind app].
  destruct (put_back_fold l SL nd_l base NB) as [NK LK]. set (kw := fold_left put_back l base) in *.
  destruct (rename_at_map ift_name g T fs WT NF) as [RN _].
  { intros n I. split; [apply FI, I|]. apply in_map_iff in I. destruct I as (d & <- & I). apply GT, SL, I. }
  assert (map (fun x => g (ftn x)) l = map g fs) as -> by (unfold fs; rewrite map_map; reflexivity).
  rewrite RN.
  assert (DIMS : map (fun d => if mem d fs then ift_name d else d) (cm_dims T) = cm_dims cm).
  { rewrite (tr_dims _ _ _ _ _ TR), map_map. rewrite <- (map_id (cm_dims cm)) at 2. apply map_ext_in. intros d I.
    destruct (mem d ds) eqn:Q.
    - fold (ftn d). rewrite (proj2 (MF (ftn d))); [apply ift_name_ft|]. exists d. split; [apply mem_In', Q|reflexivity].
    - assert (mem d fs = false) as ->; [|reflexivity]. apply not_true_is_false. intros X. apply MF in X. destruct X as (e & J & ->).
      apply (ft_not_dim e J I). }
  rewrite DIMS.
  assert (ML : forall n, mem n l = mem n ds) by (intros n; apply eq_true_iff_eq; rewrite !mem_In'; apply in_l).
  assert (MU : forall n, (padded && mem n (map unpadded_name l))%bool = true <-> orig <> None /\ exists d, In d ds /\ n = unpadded_name d).
  { intros n. rewrite andb_true_iff, mem_In', in_map_iff. rewrite QPAD. split.
    - intros [A (d & <- & I)]. split; [destruct orig; [discriminate|discriminate A]|]. exists d. split; [apply SL, I|reflexivity].
    - intros [A (d & I & ->)]. split; [destruct orig; [reflexivity|congruence]|]. exists d. split; [reflexivity|apply in_l, I]. }
  (* entries that were never touched *)
  assert (REST : forall n, ~ In n ds -> (forall d, In d ds -> n <> ftn d /\ (orig <> None -> n <> unpadded_name d)) ->
     assoc n kw = if droppedb cm ds n then None else
       match assoc n (cm_coords cm), assoc n (cm_dmap cm) with Some m, Some x => Some (KTuple x (VCoord m)) | _, _ => None end).
  { intros n N1 N2. rewrite LK. assert ((padded && mem n (map unpadded_name l))%bool = false) as ->.
    { apply not_true_is_false. rewrite MU. intros (O & d & I & Q). destruct (N2 d I) as [_ X]. apply (X O Q). }
    rewrite ML, (proj2 (mem_false n ds) N1).
    assert (mem n fs = false).
    { apply not_true_is_false. intros Q. apply MF in Q. destruct Q as (d & I & Q). destruct (N2 d I). contradiction. }
    rewrite BL by assumption. destruct (droppedb cm ds n) eqn:Dn.
    - apply (droppedb_along cm ds n W (fun d I => proj1 (G d I))) in Dn. destruct Dn as [Dn|Dn]; [contradiction|].
      rewrite (tr_along _ _ _ _ _ TR n Dn). reflexivity.
    - destruct (tr_rest _ _ _ _ _ TR n N1) as [A B]; [|exact N2|].
      + intros X. assert (droppedb cm ds n = true); [|congruence]. apply (droppedb_along cm ds n W (fun d I => proj1 (G d I))). auto.
      + rewrite A, B. destruct (assoc n (cm_coords cm)) as [m|] eqn:Qm; [|reflexivity]. rewrite (recf_settled m (ST n m Qm)). reflexivity. }
  assert (INL : forall d, In d ds -> assoc d kw = Some (KTuple [d] (VCoord (M1 (CRange (rg d)))))).
  { intros d I. rewrite LK. assert ((padded && mem d (map unpadded_name l))%bool = false) as ->.
    { apply not_true_is_false. rewrite MU. intros (O & e & J & Q). apply (d_not_unp d e I J Q). }
    rewrite ML, (proj2 (mem_In' d ds) I). reflexivity. }
  assert (INU : forall d, orig <> None -> In d ds -> assoc (unpadded_name d) kw = None).
  { intros d O I. rewrite LK. rewrite (proj2 (MU _)); [reflexivity|eauto]. }
  assert (INF : forall d, In d ds -> exists c, wf_coord c /\ assoc (ftn d) kw = Some (KTuple [] (VCoord (M1 c)))).
  { intros d I. rewrite LK. assert ((padded && mem (ftn d) (map unpadded_name l))%bool = false) as ->.
    { apply not_true_is_false. rewrite MU. intros (O & e & J & Q). apply (ftn_unp d e Q). }
    rewrite ML. assert (mem (ftn d) ds = false) as ->.
    { apply mem_false. intros J. apply (d_not_ft _ d J I eq_refl). }
    apply BF. apply MF. eauto. }
  assert (EACH : forall d, In d (cm_dims cm) -> exists c, assoc d (cm_coords cm) = Some (M1 c) /\ assoc d kw = Some (KTuple [d] (VCoord (M1 c)))).
  { intros d I. destruct (wf_dim_coord cm d W I) as (c & A & _ & D).
    destruct (name_cases d) as [(e & J & ->)|[J|[(O & e & J & ->)|(N1 & N2)]]].
    - destruct (ft_not_dim e J I).
    - destruct (G d J) as (_ & Q & _). exists (CRange (rg d)). split; [exact Q|apply INL, J].
    - destruct (FN e J) as (_ & _ & _ & _ & B). fold (unpadded_name e) in B. congruence.
    - exists c. split; [exact A|]. rewrite (REST d N1 N2), A, D.
      assert (droppedb cm ds d = false) as ->; [|reflexivity]. apply not_true_is_false.
      rewrite (droppedb_along cm ds d W (fun x I => proj1 (G x I))). intros [X|(_ & x & X1 & X2)]; [contradiction|].
      unfold dims_of in X1. rewrite D in X1. destruct X1 as [<-|[]]. contradiction. }
  assert (FIT : tuples_fit kw (cm_dims cm)).
  { constructor.
    - exact NK.
    - apply (wf_dims _ W).
    - intros n v Q. destruct (name_cases n) as [(e & J & ->)|[J|[(O & e & J & ->)|(N1 & N2)]]].
      + destruct (INF e J) as (c & K & X). rewrite X in Q. exists [], (M1 c). split; [congruence|]. split; [apply (wf_okm (M1 c)); exact K|].
        split; [constructor|]. split; [intros x []|left; reflexivity].
      + rewrite (INL n J) in Q. destruct (G n J) as (A & B & C). exists [n], (M1 (CRange (rg n))). split; [congruence|]. split; [exact C|].
        split; [repeat constructor; intros []|]. split; [intros x [<-|[]]; exact A|]. right. constructor; [|constructor].
        exists (CRange (rg n)). split; [apply INL, J|reflexivity].
      + rewrite (INU e O J) in Q. discriminate.
      + rewrite (REST n N1 N2) in Q. destruct (droppedb cm ds n); [discriminate|].
        destruct (assoc n (cm_coords cm)) as [m|] eqn:Qm; [|discriminate]. destruct (assoc n (cm_dmap cm)) as [xs|] eqn:Qx; [|discriminate].
        exists xs, m. split; [congruence|]. split; [apply wf_okm, (wf_vals _ W _ _ Qm)|]. split; [apply (wf_distinct _ W _ _ Qx)|].
        destruct (con_coord _ (wf_con _ W) n xs Qx) as (m' & Qm' & S & F). assert (m' = m) by congruence. subst m'. split; [exact S|].
        destruct F as [F|F]; [left; exact F|right].
        assert (S' : forall d, In d xs -> In d (cm_dims cm)) by exact S. clear - F S' EACH.
        induction F as [|d k xs s H F IH]; constructor.
        * destruct H as (c & A & B). destruct (EACH d (S' d (or_introl eq_refl))) as (c' & A' & X). exists c'. split; [exact X|congruence].
        * apply IH. intros; apply S'; right; assumption.
    - intros d I. destruct (EACH d I) as (c & _ & X). eauto. }
  destruct (get_cm_tuples kw (cm_dims cm) FIT) as (cm1 & EG & Wn & Dn & Kn & Cn & Mn). rewrite EG. cbn [bind].
  destruct (drop_coords_spec cm1 fs Wn) as (R & ER & WR & DR & CR & MR). rewrite ER. cbn [bind fst].
  exists R. split; [reflexivity|].
  assert (DB : forall n, droppedb cm1 fs n = mem n fs).
  { intros n. apply eq_true_iff_eq. rewrite droppedb_spec, mem_In'. split; [|left; assumption]. intros [I|(xs & x & A & B & C)]; [exact I|].
    exfalso. destruct (con_coord _ (wf_con _ Wn) n xs A) as (m & _ & S & _). pose proof (S x B) as Sx. rewrite Dn in Sx.
    apply in_map_iff in C. destruct C as (d & <- & C). apply (ft_not_dim d (SL d C) Sx). }
  constructor.
  - exact WR.
  - rewrite DR, Dn. rewrite (filter_ext_in _ (fun _ => true)).
    + clear. induction (cm_dims cm) as [|x t IH]; [reflexivity|]. cbn [filter]. rewrite IH. reflexivity.
    + intros d I. apply negb_true_iff. apply not_true_is_false. intros X. apply MF in X. destruct X as (e & J & ->). apply (ft_not_dim e J I).
  - intros n AL. rewrite CR, DB. destruct (mem n fs); [reflexivity|]. rewrite Cn. pose proof AL as (N1 & _).
    assert (Q : droppedb cm ds n = true) by (apply (droppedb_along cm ds n W (fun x I => proj1 (G x I))); auto).
    assert (exists m, assoc n (cm_coords cm) = Some m) as (m & Qm).
    { destruct AL as (_ & x & X1 & X2). unfold dims_of in X1. destruct (assoc n (cm_dmap cm)) as [xs|] eqn:Qx; [|destruct X1].
      destruct (con_coord _ (wf_con _ W) n xs Qx) as (m & Qm & _). eauto. }
    rewrite REST, Q; [reflexivity|exact N1|].
    intros d I. destruct (FN d I) as (_ & _ & _ & A & B). split; [intros ->; fold (ftn d) in A; congruence|intros _ ->; fold (unpadded_name d) in B; congruence].
  - intros n NA. rewrite CR, MR, DB.
    assert (NOD : assoc n (cm_coords cm) = None -> assoc n (cm_dmap cm) = None).
    { intros Q. destruct (assoc n (cm_dmap cm)) as [xs|] eqn:Qx; [|reflexivity].
      destruct (con_coord _ (wf_con _ W) n xs Qx) as (m & Qm & _). congruence. }
    destruct (name_cases n) as [(e & J & ->)|[J|[(O & e & J & ->)|(N1 & N2)]]].
    + rewrite (proj2 (MF (ftn e))) by eauto. destruct (FN e J) as (_ & _ & _ & A & _). fold (ftn e) in A. rewrite A, NOD by exact A. auto.
    + rewrite (DF n J), Cn, Mn, (INL n J). destruct (G n J) as (A & B & _). rewrite B.
      destruct (wf_dim_coord cm n W A) as (c & _ & _ & D). rewrite D. auto.
    + rewrite (UF e), Cn, Mn, (INU e O J). destruct (FN e J) as (_ & _ & _ & _ & B). fold (unpadded_name e) in B. rewrite B, NOD by exact B. auto.
    + assert (mem n fs = false) as ->.
      { apply not_true_is_false. intros Q. apply MF in Q. destruct Q as (d & I & Q). destruct (N2 d I). contradiction. }
      rewrite Cn, Mn, (REST n N1 N2). assert (droppedb cm ds n = false) as ->.
      { apply not_true_is_false. rewrite (droppedb_along cm ds n W (fun x I => proj1 (G x I))). tauto. }
      destruct (assoc n (cm_coords cm)) as [m|] eqn:Qm; [|rewrite (NOD eq_refl); auto].
      destruct (wf_lookup cm n m W Qm) as (xs & Qx & _). rewrite Qx, (recf_settled m (ST n m Qm)). auto.
Qed.
End IdftCoords.
