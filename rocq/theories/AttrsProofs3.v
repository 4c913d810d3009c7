(** Merging the summaries of one coordinate. *)
From Verif Require CoordSpec.
From Verif Require Import Base BaseFacts CoordModel CoordProofs CoordProofs2 FrameModel FrameProofs5 ChunkModel CmModel CmProofs
  AttrsModel AttrsSpec AttrsProofs AttrsProofs2.
From Coq Require Import Strings.String Strings.Ascii Permutation.
Local Open Scope Z_scope.

Lemma field_dtype hs : field_values "dtype" (map summ_short hs) = map (fun s => AStr (s_dtype s)) hs.
Proof. induction hs as [|s hs IH]; [reflexivity|]. unfold field_values in *. cbn [map flat_map]. rewrite IH, short_assoc. reflexivity. Qed.
Lemma field_min hs : field_values "min" (map summ_short hs) = map s_min hs.
Proof. induction hs as [|s hs IH]; [reflexivity|]. unfold field_values in *. cbn [map flat_map]. rewrite IH, short_assoc. reflexivity. Qed.
Lemma field_max hs : field_values "max" (map summ_short hs) = map s_max hs.
Proof. induction hs as [|s hs IH]; [reflexivity|]. unfold field_values in *. cbn [map flat_map]. rewrite IH, short_assoc. reflexivity. Qed.
Lemma field_opt k hs (get : summ -> scal) :
  (forall s, assoc k (summ_short s) = if not_none (k, get s) then Some (get s) else None) ->
  field_values k (map summ_short hs) = filter (fun v => not_none (k, v)) (map get hs).
Proof.
  intros H. induction hs as [|s hs IH]; [reflexivity|]. unfold field_values in *. cbn [map flat_map filter]. rewrite IH, H.
  now destruct (not_none (k, get s)).
Qed.
Lemma field_step hs : field_values "step" (map summ_short hs) = filter (fun v => not_none ("step"%string, v)) (map s_step hs).
Proof. apply field_opt. intros s. rewrite short_assoc. reflexivity. Qed.
Lemma field_units hs : field_values "units" (map summ_short hs) = filter (fun v => not_none ("units"%string, v)) (map s_units hs).
Proof. apply field_opt. intros s. rewrite short_assoc. reflexivity. Qed.

Lemma nums_map {A} (f : A -> scal) l : (forall x, In x l -> exists z, f x = ANum z) ->
  exists zs, nums (map f l) = Some zs /\ map ANum zs = map f l.
Proof.
  induction l as [|x l IH]; intros H; [exists []; split; reflexivity|].
  destruct (H x (or_introl eq_refl)) as [z Z]. destruct IH as (zs & E & M); [intros y Y; apply H; now right|].
  exists (z :: zs). cbn [map nums]. rewrite Z, E, M. split; reflexivity.
Qed.
Lemma fold_min_spec l : forall z, (In (fold_left Z.min l z) (z :: l)) /\ (forall x, In x (z :: l) -> fold_left Z.min l z <= x).
Proof.
  induction l as [|y l IH]; intros z; cbn [fold_left].
  - split; [now left|]. intros x [<-|[]]. lia.
  - destruct (IH (Z.min z y)) as (A & B). split.
    + destruct A as [A|A]; [|now right; right]. destruct (Z.min_spec z y) as [(_ & E)|(_ & E)]; rewrite E in *; [now left|right; now left].
    + intros x [<-|[<-|H]]; [| |apply B; now right]; (etransitivity; [apply (B (Z.min z y)); now left|lia]).
Qed.
Lemma fold_max_spec l : forall z, (In (fold_left Z.max l z) (z :: l)) /\ (forall x, In x (z :: l) -> x <= fold_left Z.max l z).
Proof.
  induction l as [|y l IH]; intros z; cbn [fold_left].
  - split; [now left|]. intros x [<-|[]]. lia.
  - destruct (IH (Z.max z y)) as (A & B). split.
    + destruct A as [A|A]; [|now right; right]. destruct (Z.max_spec z y) as [(_ & E)|(_ & E)]; rewrite E in *; [right; now left|now left].
    + intros x [<-|[<-|H]]; [| |apply B; now right]; (etransitivity; [|apply (B (Z.max z y)); now left]; lia).
Qed.


Lemma same_field_cases k l : (exists v, same_field k l = Ok [(k, v)] /\ v <> ANull /\ In v (field_values k l) /\ forall w, In w (field_values k l) -> w = v)
  \/ (same_field k l = Ok [] /\ field_values k l = [])
  \/ (same_field k l = Err AttributeMergeError /\
      exists v w, In v (field_values k l) /\ In w (field_values k l) /\ scal_eqb v w = false).
Proof.
  unfold same_field. destruct (field_values k l) as [|v t] eqn:E; [right; left; auto|].
  destruct (forallb (scal_eqb v) (v :: t)) eqn:F.
  - left. exists v. split; [reflexivity|]. rewrite forallb_forall in F.
    split; [specialize (F v (or_introl eq_refl)); apply scal_eqb_spec in F; tauto|]. split; [now left|].
    intros w W. specialize (F w W). apply scal_eqb_spec in F. symmetry. tauto.
  - right; right. split; [reflexivity|].
    assert (G : exists w, In w (v :: t) /\ scal_eqb v w = false).
    { clear E. revert F. generalize (v :: t) as q. induction q as [|w q IH]; cbn [forallb]; [discriminate|].
      destruct (scal_eqb v w) eqn:W; cbn [andb]; [intros F; destruct (IH F) as (u & U & V); exists u; split; [now right|exact V]|].
      intros _. exists w. split; [now left|exact W]. }
    destruct G as (w & W & V). exists v, w. split; [now left|split; assumption].
Qed.

Lemma merged_step_cases hs : (forall h, In h hs -> s_step h = ANone \/ s_step h = ANull \/ exists z, s_step h = ANum z) ->
  exists st, merged_step (field_values "step" (map summ_short hs)) = Ok st
    /\ (st = ANone \/ exists h, In h hs /\ st = s_step h) /\ st <> ANull
    /\ (forall z, (exists h, In h hs /\ s_step h = ANum z) -> (forall h, In h hs -> s_step h = ANone \/ s_step h = ANum z) -> st = ANum z)
    /\ (forall g h y z, In g hs -> In h hs -> s_step g = ANum y -> s_step h = ANum z -> Z.abs y < 100 * Z.abs (y - z) -> st = ANone)
    /\ (forall h, In h hs -> s_step h = ANull -> st = ANone).
Proof.
  intros H. rewrite field_step. unfold merged_step.
  set (vs := filter _ (map s_step hs)).
  assert (V : forall v, In v vs -> v = ANull \/ exists z, v = ANum z).
  { intros v I. apply filter_In in I. destruct I as (I & N). apply in_map_iff in I. destruct I as (h & <- & I).
    destruct (H h I) as [E|[E|E]]; [rewrite E in N; discriminate|now left|now right]. }
  assert (VI : forall v, In v vs -> exists h, In h hs /\ v = s_step h).
  { intros v I. apply filter_In in I. destruct I as (I & _). apply in_map_iff in I. destruct I as (h & <- & I). eauto. }
  assert (IV : forall h, In h hs -> s_step h <> ANone -> In (s_step h) vs).
  { intros h Ih N. apply filter_In. split; [now apply in_map|]. unfold not_none. cbn [snd]. now destruct (s_step h). }
  destruct (existsb _ vs) eqn:EX.
  - exists ANone. split; [reflexivity|]. split; [now left|]. split; [discriminate|]. split; [|split; reflexivity].
    intros z _ A. exfalso. apply existsb_exists in EX. destruct EX as (v & I & E). destruct (VI v I) as (h & Ih & ->).
    apply filter_In in I. destruct I as (_ & I). destruct (A h Ih) as [Q|Q]; rewrite Q in *; discriminate.
  - destruct (nums_map (fun x => x) vs) as (zs & E & M).
    { intros v I. destruct (V v I) as [->|Z]; [|exact Z]. exfalso.
      assert (T : existsb (fun v => match v with ANull => true | _ => false end) vs = true) by (apply existsb_exists; exists ANull; auto).
      rewrite T in EX. discriminate. }
    rewrite map_id in E, M. rewrite E.
    assert (NN : forall h, In h hs -> s_step h <> ANull).
    { intros h Ih Q. assert (I : In (s_step h) vs) by (apply IV; [exact Ih|rewrite Q; discriminate]).
      assert (T : existsb (fun v => match v with ANull => true | _ => false end) vs = true) by (apply existsb_exists; exists (s_step h); rewrite Q in *; auto).
      rewrite T in EX. discriminate. }
    assert (IZ : forall h z, In h hs -> s_step h = ANum z -> In z zs).
    { intros h z Ih Q. assert (I : In (s_step h) vs) by (apply IV; [exact Ih|rewrite Q; discriminate]).
      rewrite Q, <- M in I. apply in_map_iff in I. destruct I as (z' & Q' & I). injection Q' as ->. exact I. }
    cut (exists st, (if close_to_median (np_sort zs) then Ok match znth (np_sort zs) ((zlen (np_sort zs) - 1) / 2) with Some z => ANum z | None => ANone end else Ok ANone) = Ok st
      /\ (st = ANone \/ exists h, In h hs /\ st = s_step h) /\ st <> ANull
      /\ (forall z, (exists h, In h hs /\ s_step h = ANum z) -> (forall h, In h hs -> s_step h = ANone \/ s_step h = ANum z) -> st = ANum z)
      /\ (close_to_median (np_sort zs) = false -> st = ANone)).
    { intros (st & S1 & S2 & S3 & S4 & S5). exists st. split; [exact S1|]. split; [exact S2|]. split; [exact S3|]. split; [exact S4|]. split.
      - intros g h y z Ig Ih Eg Eh Far. apply S5. destruct (close_to_median (np_sort zs)) eqn:C; [exfalso|reflexivity].
        apply close_to_median_spec in C. destruct C as (_ & m2 & C).
        pose proof (C y ltac:(apply in_np_sort; now apply (IZ g))) as X. pose proof (C z ltac:(apply in_np_sort; now apply (IZ h))) as Y.
        unfold CoordSpec.near_half in X, Y. lia.
      - intros h Ih Q. exfalso. now apply (NN h). }
    assert (Pm : forall x, In x (np_sort zs) <-> In x zs) by (intros x; apply in_np_sort).
    destruct (close_to_median (np_sort zs)) eqn:C.
    + destruct (znth (np_sort zs) ((zlen (np_sort zs) - 1) / 2)) as [z|] eqn:Z.
      * exists (ANum z). split; [reflexivity|].
        assert (I : In z zs). { apply Pm. unfold znth in Z. destruct (_ <? 0); [discriminate|]. now apply nth_error_In in Z. }
        assert (Iv : In (ANum z) vs) by (rewrite <- M; now apply in_map).
        destruct (VI _ Iv) as (h & Ih & Eh). split; [right; eauto|]. split; [discriminate|]. split; [|discriminate].
        intros z' _ A. rewrite Eh. destruct (A h Ih) as [Q|Q]; [rewrite Q in Eh; discriminate|exact Q].
      * exists ANone. split; [reflexivity|]. split; [now left|]. split; [discriminate|]. split; [|reflexivity].
        intros z Ne A. exfalso. destruct (np_sort zs) as [|y ys] eqn:S; [discriminate C|].
        assert (L : 0 < zlen (y :: ys)) by (unfold zlen; cbn [Datatypes.length]; lia).
        apply znth_none in Z. rewrite <- S in *.
        assert (0 <= (zlen (np_sort zs) - 1) / 2 < zlen (np_sort zs)).
        { split; [apply Z.div_pos; lia|]. apply Z.div_lt_upper_bound; lia. }
        lia.
    + exists ANone. split; [reflexivity|]. split; [now left|]. split; [discriminate|]. split; [|reflexivity].
      intros z Ne A. exfalso.
      assert (Cz : forall x, In x zs -> x = z).
      { intros x I. assert (Iv : In (ANum x) vs) by (rewrite <- M; now apply in_map).
        destruct (VI _ Iv) as (h & Ih & Eh). destruct (A h Ih) as [Q|Q]; rewrite Q in Eh; [discriminate|congruence]. }
      assert (Nz : zs <> []).
      { destruct Ne as (h & Ih & Eh). intros Ez. pose proof (IZ h z Ih Eh) as I. rewrite Ez in I. exact I. }
      assert (C' : close_to_median (np_sort zs) = true); [|congruence].
      assert (Cs : forall x, In x (np_sort zs) -> x = z) by (intros x I; apply Cz; now apply Pm).
      destruct (np_sort zs) as [|y ys] eqn:S; [|].
      * exfalso. destruct zs as [|a zs']; [congruence|]. assert (I : In a []) by (apply Pm; now left). exact I.
      * rewrite <- S in *. assert (Sne : np_sort zs <> []) by (rewrite S; discriminate).
        unfold close_to_median. destruct (np_sort zs) as [|y' ys'] eqn:S'; [congruence|]. rewrite <- S' in *. clear S' y' ys' S y ys.
        assert (N0 : forall i, (i < List.length (np_sort zs))%nat -> nth i (np_sort zs) 0 = z) by (intros i Hi; apply Cs, nth_In; exact Hi).
        assert (Ln : (0 < List.length (np_sort zs))%nat) by (destruct (np_sort zs); [congruence|cbn; lia]).
        assert (T : twice_median (np_sort zs) = 2 * z).
        { unfold twice_median. pose proof (Nat.div_lt (List.length (np_sort zs)) 2 Ln ltac:(lia)).
          destruct (Nat.even _); rewrite !N0 by lia; lia. }
        rewrite T. apply forallb_forall. intros d D. rewrite (Cs d D). apply Z.leb_le.
        replace (2 * z - 2 * z) with 0 by lia. cbn [Z.abs]. lia.
Qed.

Lemma dict_self m : NoDup (map fst m) -> (forall k v, In (k, v) m -> v <> ANull) -> dict_eqb scal_eqb m m = true.
Proof.
  intros ND H. apply dict_eqb_spec; [exact ND|exact ND|]. intros k. unfold rel_opt.
  destruct (assoc k m) as [v|] eqn:E; [|exact I]. apply scal_eqb_spec. split; [reflexivity|].
  apply (H k). now apply assoc_in.
Qed.


Lemma scal_dec (v w : scal) : {v = w} + {v <> w}.
Proof. decide equality; [apply Z.eq_dec|apply string_dec|apply (list_eq_dec string_dec)]. Qed.
Lemma merged_coord_cases hs : hs <> [] -> (forall h, In h hs -> numeric h) -> (forall h, In h hs -> tidy_summ h) ->
  (exists new s, merged_coord (map summ_short hs) = Ok new /\ entry_ok new /\ new <> [] /\ mk_summ new = Ok s
     /\ merged hs s /\ dict_eqb scal_eqb new new = true)
  \/ (merged_coord (map summ_short hs) = Err AttributeMergeError /\ clash hs).
Proof.
  intros Ne Nu Ti. unfold merged_coord.
  destruct (map summ_short hs) as [|m0 ms0] eqn:Eh; [destruct hs; [congruence|discriminate]|]. rewrite <- Eh. clear Eh m0 ms0.
  destruct (same_field_cases "dtype" (map summ_short hs)) as [(dt & -> & Ndt & Idt & Adt)|[(_ & E)|(E & v & w & V & W & VW)]].
  2: { exfalso. rewrite field_dtype in E. destruct hs; [congruence|discriminate]. }
  2: { right. rewrite E. split; [reflexivity|]. rewrite field_dtype in V, W. apply in_map_iff in V, W.
       destruct V as (g & <- & G), W as (h & <- & H). exists g, h. split; [exact G|]. split; [exact H|]. left.
       cbn in VW. apply String.eqb_neq in VW. exact VW. }
  rewrite field_dtype in Idt, Adt. apply in_map_iff in Idt. destruct Idt as (h0 & <- & Ih0).
  assert (Adt' : forall h, In h hs -> s_dtype h = s_dtype h0).
  { intros h Hh. assert (E : AStr (s_dtype h) = AStr (s_dtype h0)) by (apply Adt; apply in_map_iff; exists h; split; [reflexivity|exact Hh]). congruence. }
  cbn [bind].
  assert (UN : forall u, In u (field_values "units" (map summ_short hs)) <-> exists h, In h hs /\ s_units h = u /\ u <> ANone).
  { intros u. rewrite field_units, filter_In, in_map_iff. unfold not_none. cbn [snd]. split.
    - intros ((h & <- & Hh) & K). exists h. split; [exact Hh|]. split; [reflexivity|]. intros Q. rewrite Q in K. discriminate.
    - intros (h & Hh & <- & K). split; [eauto|]. destruct (s_units h); congruence. }
  destruct (nums_map s_min hs) as (mns & Emn & Mmn); [intros x X; apply (Nu x X)|].
  destruct (nums_map s_max hs) as (mxs & Emx & Mmx); [intros x X; apply (Nu x X)|].
  destruct mns as [|mn mns]; [destruct hs; [congruence|discriminate]|].
  destruct mxs as [|mx mxs]; [destruct hs; [congruence|discriminate]|].
  assert (Pmn : py_extreme Z.min (field_values "min" (map summ_short hs)) = Ok (ANum (fold_left Z.min mns mn))).
  { rewrite field_min. unfold py_extreme. rewrite Emn. destruct (map s_min hs) eqn:Q; [discriminate|reflexivity]. }
  assert (Pmx : py_extreme Z.max (field_values "max" (map summ_short hs)) = Ok (ANum (fold_left Z.max mxs mx))).
  { rewrite field_max. unfold py_extreme. rewrite Emx. destruct (map s_max hs) eqn:Q; [discriminate|reflexivity]. }
  destruct (merged_step_cases hs) as (st & Est & St1 & St2 & St3 & St4 & St5); [intros h Hh; apply (Nu h Hh)|].
  destruct (fold_min_spec mns mn) as (Fn1 & Fn2). destruct (fold_max_spec mxs mx) as (Fx1 & Fx2).
  set (zn := fold_left Z.min mns mn) in *. set (zx := fold_left Z.max mxs mx) in *.
  assert (MN : (exists h, In h hs /\ s_min h = ANum zn) /\ forall h y, In h hs -> s_min h = ANum y -> zn <= y).
  { split.
    - assert (I : In (ANum zn) (map s_min hs)) by (rewrite <- Mmn; now apply in_map).
      apply in_map_iff in I. destruct I as (h & E & Hh). eauto.
    - intros h y Hh E. apply Fn2. assert (I : In (ANum y) (map ANum (mn :: mns))) by (rewrite Mmn, <- E; now apply in_map).
      apply in_map_iff in I. destruct I as (y' & Q & I). injection Q as ->. exact I. }
  assert (MX : (exists h, In h hs /\ s_max h = ANum zx) /\ forall h y, In h hs -> s_max h = ANum y -> y <= zx).
  { split.
    - assert (I : In (ANum zx) (map s_max hs)) by (rewrite <- Mmx; now apply in_map).
      apply in_map_iff in I. destruct I as (h & E & Hh). eauto.
    - intros h y Hh E. apply Fx2. assert (I : In (ANum y) (map ANum (mx :: mxs))) by (rewrite Mmx, <- E; now apply in_map).
      apply in_map_iff in I. destruct I as (y' & Q & I). injection Q as ->. exact I. }
  destruct (Ti h0 Ih0) as (Td1 & Td2).
  assert (SP : hd ""%string (str_split "[" (s_dtype h0)) = s_dtype h0).
  { rewrite str_split_single; [reflexivity|]. intros a b E. apply Td2. exists a, b. exact E. }
  destruct (same_field_cases "units" (map summ_short hs)) as [(un & -> & Nun & Iun & Aun)|[(-> & E)|(E & v & w & V & W & VW)]];
    cbn [bind]; [| |rewrite E].
  - left. rewrite Pmn, Pmx, Est. cbn [bind]. apply UN in Iun. destruct Iun as (hu & Ihu & Ehu & Nhu).
    eexists _, (mkSumm (s_dtype h0) (ANum zn) (ANum zx) st un). split; [reflexivity|].
    assert (ND : NoDup (map fst ([("dtype"%string, AStr (s_dtype h0))] ++ [("units"%string, un)] ++
       [("min"%string, ANum zn); ("max"%string, ANum zx); ("step"%string, st)]))).
    { cbn. repeat constructor; cbn; intuition congruence. }
    assert (MK : mk_summ ([("dtype"%string, AStr (s_dtype h0))] ++ [("units"%string, un)] ++
       [("min"%string, ANum zn); ("max"%string, ANum zx); ("step"%string, st)])
       = Ok (mkSumm (s_dtype h0) (ANum zn) (ANum zx) st un)).
    { unfold mk_summ, get_or. cbn -[str_split hd]. destruct (String.eqb_spec (s_dtype h0) ""); [contradiction|]. now rewrite SP. }
    split; [|split; [discriminate|split; [exact MK|split]]].
    + split; [exact ND|]. split; [reflexivity|]. split; [reflexivity|]. rewrite MK. eauto.
    + constructor; cbn [s_dtype s_min s_max s_step s_units]; auto.
      * exists zn. split; [reflexivity|exact MN].
      * exists zx. split; [reflexivity|exact MX].
      * intros h Hh. destruct (s_units h) eqn:Q; [now left|right..]; apply Aun, UN; exists h; repeat split; try assumption; discriminate.
      * right. exists hu. auto.
      * unfold solid. cbn [s_min s_max s_step s_units]. repeat split; try discriminate; assumption.
    + apply dict_self; [exact ND|]. intros k v [Q|[Q|[Q|[Q|[Q|[]]]]]]; injection Q as <- <-; try discriminate; assumption.
  - left. rewrite Pmn, Pmx, Est. cbn [bind].
    assert (U0 : forall h, In h hs -> s_units h = ANone).
    { intros h Hh. destruct (s_units h) eqn:Q; [reflexivity|exfalso..];
      (assert (I : In (s_units h) (field_values "units" (map summ_short hs))) by (apply UN; exists h; repeat split; [exact Hh|congruence]));
      rewrite E in I; exact I. }
    eexists _, (mkSumm (s_dtype h0) (ANum zn) (ANum zx) st ANone). split; [reflexivity|].
    assert (ND : NoDup (map fst ([("dtype"%string, AStr (s_dtype h0))] ++ [] ++
       [("min"%string, ANum zn); ("max"%string, ANum zx); ("step"%string, st)]))).
    { cbn. repeat constructor; cbn; intuition congruence. }
    assert (MK : mk_summ ([("dtype"%string, AStr (s_dtype h0))] ++ [] ++
       [("min"%string, ANum zn); ("max"%string, ANum zx); ("step"%string, st)])
       = Ok (mkSumm (s_dtype h0) (ANum zn) (ANum zx) st ANone)).
    { unfold mk_summ, get_or. cbn -[str_split hd]. destruct (String.eqb_spec (s_dtype h0) ""); [contradiction|]. now rewrite SP. }
    split; [|split; [discriminate|split; [exact MK|split]]].
    + split; [exact ND|]. split; [reflexivity|]. split; [reflexivity|]. rewrite MK. eauto.
    + constructor; cbn [s_dtype s_min s_max s_step s_units]; auto.
      * exists zn. split; [reflexivity|exact MN].
      * exists zx. split; [reflexivity|exact MX].
      * unfold solid. cbn [s_min s_max s_step s_units]. repeat split; try discriminate; assumption.
    + apply dict_self; [exact ND|]. intros k v [Q|[Q|[Q|[Q|[]]]]]; injection Q as <- <-; try discriminate; assumption.
  - right. split; [reflexivity|]. apply UN in V, W. destruct V as (g & G & Eg & Ng), W as (h & H & Eh & Nh).
    exists g, h. split; [exact G|]. split; [exact H|]. right. rewrite Eg, Eh. split; [exact Ng|]. split; [exact Nh|].
    destruct (scal_eqb_spec v w) as (_ & Q). destruct (scal_dec v w) as [->|D]; [right|now left].
    destruct w; try reflexivity; exfalso; (rewrite Q in VW; [discriminate|split; [reflexivity|discriminate]]).
Qed.
