(** Lemmas about coordinates and patches with units, and about limits of filters. *)
From Coq Require Import QArith Qround Qfield List Strings.String Bool Lia Lqa.
From Verif Require Import Base BaseFacts FrameModel UnitsModel UnitsSpec UnitsProofs.
Import ListNotations.
Local Open Scope Q_scope.

Lemma whole_num x n : x == inject_Z n -> Qnum x = (n * Zpos (Qden x))%Z.
Proof. unfold Qeq, inject_Z. cbn [Qnum Qden]. lia. Qed.
Lemma rhe_whole n d : (0 < d)%Z -> round_half_even (n * d) d = n.
Proof.
  intros H. unfold round_half_even. destruct (Z.ltb_spec d 0); [lia|]. rewrite Z.abs_eq by lia.
  rewrite Z.mod_mul, Z.div_mul by lia. destruct (Z.ltb_spec (2 * 0) d); [reflexivity|lia].
Qed.
Lemma q_round_whole x n : x == inject_Z n -> q_round x = n.
Proof. intros H. unfold q_round. rewrite (whole_num _ _ H). apply rhe_whole. lia. Qed.
Lemma q_round1_whole x n : x == inject_Z n -> q_round1 x == inject_Z n.
Proof.
  intros H. unfold q_round1. rewrite (whole_num _ _ H).
  replace (n * Z.pos (Qden x) * 10)%Z with ((n * 10) * Z.pos (Qden x))%Z by ring.
  rewrite rhe_whole by lia. unfold Qeq, inject_Z. cbn [Qnum Qden]. lia.
Qed.
Lemma q_sign_scaled x y n : (0 < n)%Z -> x == y * inject_Z n -> q_sign x = q_sign y.
Proof.
  intros N. unfold Qeq, q_sign, inject_Z, Qmult. cbn [Qnum Qden]. intros E.
  rewrite Pos.mul_1_r in E.
  destruct (Z.lt_trichotomy (Qnum y) 0) as [L|[L|L]].
  - assert (Qnum x < 0)%Z by nia. rewrite !Z.sgn_neg; lia.
  - assert (Qnum x = 0)%Z by nia. rewrite L, H. reflexivity.
  - assert (0 < Qnum x)%Z by nia. rewrite !Z.sgn_pos; lia.
Qed.

(** An evenly sampled coordinate rebuilt from its ends and its own length. *)
Lemma range_of_ok a b n : (0 < n)%Z -> ~ a == b ->
  exists stop step, range_of a b ((b - a) / inject_Z n) = Ok (LRange a stop step n) /\
    step = (b - a) / inject_Z n /\ stop == b.
Proof.
  intros N D. set (step := (b - a) / inject_Z n).
  assert (Nz : ~ inject_Z n == 0) by (unfold Qeq, inject_Z; cbn; lia).
  assert (S : step * inject_Z n == b - a) by (unfold step; field; exact Nz).
  assert (Sz : ~ step == 0).
  { intros Z. rewrite Z in S. apply D. lra. }
  assert (Q : (b - a) / step == inject_Z n).
  { rewrite <- S. field. exact Sz. }
  unfold range_of. rewrite (Qeq_bool_false _ _ Sz).
  assert (C : Qceiling (q_round1 ((b - a) / step)) = n).
  { rewrite (Qceiling_comp _ _ (q_round1_whole _ _ Q)). apply Qceiling_Z. }
  rewrite C. set (stop := a + step * inject_Z n). assert (St : stop == b) by (unfold stop; rewrite S; ring).
  assert (D' : ~ a == stop) by (rewrite St; exact D).
  rewrite (Qeq_bool_false _ _ D').
  assert (Q' : (stop - a) / step == inject_Z n) by (rewrite St; exact Q).
  rewrite (q_round_whole _ _ Q').
  rewrite (q_sign_scaled (stop - a) step n N) by (rewrite S, St; reflexivity).
  rewrite Z.eqb_refl. exists stop, step. tauto.
Qed.

Lemma label_range_in start stop step len i x : label (LRange start stop step len) i = Some x ->
  (0 <= i < len)%Z /\ x = start + inject_Z i * step.
Proof.
  cbn [label]. destruct (Z.leb_spec 0 i), (Z.ltb_spec i len); cbn [andb]; try discriminate.
  intros H'. injection H' as <-. split; [lia|reflexivity].
Qed.
Lemma label_range_at start stop step len i : (0 <= i < len)%Z ->
  label (LRange start stop step len) i = Some (start + inject_Z i * step).
Proof.
  intros H. cbn [label]. destruct (Z.leb_spec 0 i), (Z.ltb_spec i len); cbn [andb]; try lia. reflexivity.
Qed.

Lemma same_numbers_refl c : same_numbers c c.
Proof. split; [reflexivity|]. intros i x H. exists x. split; [exact H|reflexivity]. Qed.

Lemma map_znth {A B} (g : A -> B) (l : list A) i x : znth l i = Some x -> znth (map g l) i = Some (g x).
Proof.
  unfold znth. destruct (i <? 0)%Z; [discriminate|]. intros H. rewrite nth_error_map, H. reflexivity.
Qed.

Lemma coord_convert_ok c u : wf_ucoord c -> convertible c u ->
  exists c', coord_convert c u = Ok c' /\ converted c c' u.
Proof.
  intros (W & T & P) (NP & H). unfold coord_convert, converted.
  destruct (uc_time c) eqn:TM.
  - specialize (T eq_refl). rewrite T. destruct (uc_labels c) as [start stop step len|vs|n] eqn:L; [| |exfalso; exact (NP n eq_refl)].
    + exists c. split; [reflexivity|]. split; [apply same_numbers_refl|]. rewrite TM. tauto.
    + eexists. split; [reflexivity|]. cbn [with_units uc_time uc_units uc_labels]. split; [|tauto].
      unfold same_numbers. cbn [with_units uc_labels]. rewrite L. split; [reflexivity|].
      intros i x E. exists x. split; [exact E|reflexivity].
  - destruct H as [H|[H|(from & to & H & -> & D & Pt)]]; [discriminate| |]; rewrite H.
    + destruct (uc_labels c) as [start stop step len|vs|n] eqn:L; [| |exfalso; exact (NP n eq_refl)].
      * unfold convert. cbn [converter bind]. destruct W as (Ln & Sz & St).
        assert (Nz : ~ inject_Z len == 0) by (unfold Qeq, inject_Z; cbn; lia).
        assert (Dab : ~ start == stop).
        { rewrite St. intros E. assert (Z : step * inject_Z len == 0) by lra.
          destruct (Qmult_integral _ _ Z); contradiction. }
        destruct (range_of_ok start stop len Ln Dab) as (stop' & step' & E & E1 & E2). rewrite E. cbn [bind].
        eexists. split; [reflexivity|]. cbn [with_units uc_time uc_units]. split; [reflexivity|]. split; [reflexivity|].
        unfold same_numbers. cbn [with_units uc_labels]. rewrite L. split; [reflexivity|].
        intros i x I. apply label_range_in in I. destruct I as [I ->].
        eexists. split; [exact (label_range_at _ _ _ _ _ I)|]. rewrite E1, St. field. exact Nz.
      * eexists. split; [reflexivity|]. cbn [with_units uc_time uc_units]. split; [reflexivity|]. split; [reflexivity|].
        unfold same_numbers. cbn [with_units uc_labels]. rewrite L. split; [reflexivity|].
        intros i x I. exists x. split; [exact I|reflexivity].
    + rewrite H in P. destruct (converter_ok from to D Pt) as (g & Eg & G & m1 & a & m2 & Gf).
      destruct (uc_labels c) as [start stop step len|vs|n] eqn:L; [| |exfalso; exact (NP n eq_refl)].
      * unfold convert. rewrite Eg. cbn [bind]. destruct W as (Ln & Sz & St).
        assert (Nz : ~ inject_Z len == 0) by (unfold Qeq, inject_Z; cbn; lia).
        assert (Dab : ~ g start == g stop).
        { intros E. assert (Z : stands_for start from == stands_for stop from) by (rewrite <- !G; unfold stands_for; rewrite E; reflexivity).
          apply (stands_inj _ _ from P) in Z. rewrite St in Z. assert (Z' : step * inject_Z len == 0) by lra.
          destruct (Qmult_integral _ _ Z'); contradiction. }
        destruct (range_of_ok (g start) (g stop) len Ln Dab) as (stop' & step' & E & E1 & E2). rewrite E. cbn [bind].
        eexists. split; [reflexivity|]. cbn [with_units uc_time uc_units]. split; [reflexivity|]. split; [reflexivity|].
        unfold same_points. cbn [with_units uc_labels]. rewrite L. split; [reflexivity|].
        intros i x I. apply label_range_in in I. destruct I as [I ->].
        eexists. split; [exact (label_range_at _ _ _ _ _ I)|]. rewrite E1, <- G.
        unfold stands_for. rewrite Gf. unfold apply_factors. rewrite St.
        setoid_replace (((start + step * inject_Z len) * m1 + a) * m2 - (start * m1 + a) * m2) with (step * m1 * m2 * inject_Z len) by ring.
        field. exact Nz.
      * rewrite Eg. cbn [bind]. eexists. split; [reflexivity|]. cbn [with_units uc_time uc_units]. split; [reflexivity|]. split; [reflexivity|].
        unfold same_points. cbn [with_units uc_labels]. rewrite L. split; [unfold label_count, zlen; rewrite map_length; reflexivity|].
        intros i x I. exists (g x). split; [exact (map_znth g vs i x I)|apply G].
Qed.

(** Units that do not fit are refused. *)
Lemma coord_convert_refuses c from u : uc_time c = false -> uc_units c = Some from -> (forall n, uc_labels c <> LPartial n) ->
  match u with Some to => ~ same_dim from to | None => True end -> coord_convert c u = Err UnitError.
Proof.
  intros T U NP H. unfold coord_convert. rewrite T, U.
  assert (E : converter u (Some from) = Err UnitError).
  { destruct u as [to|]; [|reflexivity]. unfold converter. rewrite (factors_err from to H). reflexivity. }
  destruct (uc_labels c) as [? ? ? ?|vs|n] eqn:L; [| |exfalso; exact (NP n eq_refl)].
  - unfold convert. rewrite E. reflexivity.
  - rewrite E. reflexivity.
Qed.

(** ** Patches *)

Lemma assoc_put cs n c m : assoc m (put_coord cs n c) = if String.eqb m n then match assoc n cs with Some _ => Some c | None => None end else assoc m cs.
Proof.
  induction cs as [|[k d] t IH]; cbn [put_coord assoc].
  - destruct (String.eqb m n); reflexivity.
  - rewrite (String.eqb_sym n k). destruct (String.eqb_spec k n) as [Kn|Kn]; cbn [assoc].
    + subst k. destruct (String.eqb m n); reflexivity.
    + rewrite IH. destruct (String.eqb_spec m k) as [Mk|Mk], (String.eqb_spec m n) as [Mn|Mn]; try congruence; reflexivity.
Qed.
Lemma put_names cs n c : map fst (put_coord cs n c) = map fst cs.
Proof.
  induction cs as [|[k d] t IH]; cbn [put_coord map fst]; [reflexivity|].
  destruct (String.eqb k n); cbn [map fst]; [reflexivity|]. rewrite IH. reflexivity.
Qed.

(** Keywords with distinct names are independent of each other. *)
Lemma cm_units_ok f (R : ucoord -> ucoord -> option quant -> Prop) kw : NoDup (map fst kw) -> forall cs,
  (forall n u, In (n, u) kw -> exists c c', assoc n cs = Some c /\ f c u = Ok c' /\ R c c' u) ->
  exists cs', cm_units f kw cs = Ok cs' /\ map fst cs' = map fst cs /\
    (forall n u, In (n, u) kw -> exists c c', assoc n cs = Some c /\ assoc n cs' = Some c' /\ R c c' u) /\
    (forall n, ~ In n (map fst kw) -> assoc n cs' = assoc n cs).
Proof.
  induction kw as [|[n u] rest IH]; intros ND cs H; cbn [cm_units].
  - exists cs. split; [reflexivity|]. split; [reflexivity|]. split; [intros ? ? []|reflexivity].
  - destruct (H n u (or_introl eq_refl)) as (c & c' & Ac & Fc & Rc). rewrite Ac, Fc. cbn [bind].
    cbn [map fst] in ND. inversion ND as [|? ? N1 N2]; subst.
    assert (X : forall m v, In (m, v) rest -> m <> n).
    { intros m v I ->. apply N1. exact (in_map fst _ _ I). }
    destruct (IH N2 (put_coord cs n c')) as (cs' & E & NM & Y & O).
    { intros m v I. destruct (H m v (or_intror I)) as (d & d' & Ad & Fd & Rd). exists d, d'.
      rewrite assoc_put. destruct (String.eqb_spec m n) as [->|]; [exfalso; exact (X _ _ I eq_refl)|tauto]. }
    exists cs'. split; [exact E|]. split; [rewrite NM; apply put_names|]. split.
    + intros m v [I|I].
      * injection I as <- <-. exists c, c'. split; [exact Ac|]. split; [|exact Rc].
        rewrite (O n N1), assoc_put, String.eqb_refl, Ac. reflexivity.
      * destruct (Y m v I) as (d & d' & Ad & Ad' & Rd). exists d, d'. split; [|tauto].
        rewrite assoc_put in Ad. destruct (String.eqb_spec m n) as [->|]; [exfalso; exact (X _ _ I eq_refl)|exact Ad].
    + intros m M. cbn [map fst In] in M. rewrite (O m) by tauto. rewrite assoc_put.
      destruct (String.eqb_spec m n) as [->|]; [exfalso; apply M; left; reflexivity|reflexivity].
Qed.
Lemma cm_units_unknown f kw cs n u : In (n, u) kw -> assoc n cs = None -> exists e, cm_units f kw cs = Err e.
Proof.
  revert cs. induction kw as [|[m v] rest IH]; intros cs I A; [destruct I|].
  cbn [cm_units]. destruct (assoc m cs) as [c|] eqn:Am; [|eexists; reflexivity].
  destruct (f c v) as [c'|e]; cbn [bind]; [|eexists; reflexivity].
  destruct I as [I|I]; [injection I as -> ->; congruence|].
  apply IH; [exact I|]. rewrite assoc_put, A. destruct (String.eqb_spec n m) as [E|]; [subst m; congruence|reflexivity].
Qed.
Lemma unknown_refused p u kw n v : In (n, v) kw -> assoc n (up_coords p) = None ->
  (exists e, set_units p u kw = Err e) /\ (exists e, patch_convert p u kw = Err e) /\
  (kw = [(n, v)] -> set_units p u kw = Err KeyError /\ patch_convert p None kw = Err KeyError).
Proof.
  intros I A. split.
  - destruct (cm_units_unknown coord_set_units kw _ n v I A) as (e & E). exists e. unfold set_units. rewrite E. reflexivity.
  - split.
    + destruct (cm_units_unknown coord_convert kw _ n v I A) as (e & E). unfold patch_convert.
      match goal with |- context [bind ?x _] => destruct x as [d|e'] end; cbn [bind]; [|eexists; reflexivity].
      rewrite E. eexists. reflexivity.
    + intros ->. unfold set_units, patch_convert. cbn [cm_units bind]. rewrite A. split; reflexivity.
Qed.

Lemma patch_convert_ok p u kw : NoDup (map fst kw) ->
  match u, up_units p with Some to, Some from => same_dim from to /\ proper to | _, _ => True end ->
  (forall n v, In (n, v) kw -> exists c, assoc n (up_coords p) = Some c /\ wf_ucoord c /\ convertible c v) ->
  exists out, patch_convert p u kw = Ok out /\ data_converted p out u /\
    map fst (up_coords out) = map fst (up_coords p) /\
    (forall n v, In (n, v) kw -> exists c c', assoc n (up_coords p) = Some c /\ assoc n (up_coords out) = Some c' /\ converted c c' v) /\
    forall n, ~ In n (map fst kw) -> assoc n (up_coords out) = assoc n (up_coords p).
Proof.
  intros ND HU HC.
  destruct (cm_units_ok coord_convert converted kw ND (up_coords p)) as (cs & E & NM & Y & O).
  { intros n v I. destruct (HC n v I) as (c & A & W & K). destruct (coord_convert_ok c v W K) as (c' & E & R). exists c, c'. tauto. }
  unfold patch_convert. destruct u as [to|].
  - destruct (up_units p) as [from|] eqn:U.
    + destruct HU as [D P]. destruct (converter_ok from to D P) as (g & Eg & G & _). rewrite Eg. cbn [bind]. rewrite E. cbn [bind].
      eexists. split; [reflexivity|]. unfold data_converted. cbn [up_data up_units up_coords]. rewrite U. split.
      * split; [reflexivity|]. clear - G. induction (up_data p); constructor; [apply G|assumption].
      * tauto.
    + cbn [converter bind]. rewrite E. cbn [bind].
      eexists. split; [reflexivity|]. unfold data_converted. cbn [up_data up_units up_coords]. rewrite U. split.
      * split; [reflexivity|apply map_id].
      * tauto.
  - cbn [bind]. rewrite E. cbn [bind]. eexists. split; [reflexivity|]. unfold data_converted. cbn [up_data up_units up_coords]. tauto.
Qed.
Lemma patch_convert_refuses p u from kw : up_units p = Some from -> ~ same_dim from u ->
  patch_convert p (Some u) kw = Err UnitError.
Proof. intros U D. unfold patch_convert. rewrite U. cbn [converter]. rewrite (factors_err from u D). reflexivity. Qed.

(** ** Simplifying *)
Lemma simplify_target c q : uc_units c = Some q -> wf_ucoord c -> (forall n, uc_labels c <> LPartial n) ->
  convertible c (snd (factor_and_unit (uc_units c))).
Proof.
  intros U W NP. split; [exact NP|]. right. right. rewrite U. cbn [factor_and_unit snd].
  exists q. eexists. split; [reflexivity|]. split; [reflexivity|]. split; [reflexivity|].
  split; [reflexivity|]. cbn [q_mag]. discriminate.
Qed.
Lemma coord_simplify_ok c : wf_ucoord c -> (forall n, uc_labels c <> LPartial n) ->
  exists c', coord_simplify c = Ok c' /\ converted c c' (base_of (uc_units c)).
Proof.
  intros W NP. unfold coord_simplify.
  assert (E : snd (factor_and_unit (uc_units c)) = base_of (uc_units c)) by (destruct (uc_units c); reflexivity).
  rewrite <- E. apply coord_convert_ok; [exact W|].
  destruct (uc_units c) as [q|] eqn:U.
  - rewrite <- U. exact (simplify_target c q U W NP).
  - split; [exact NP|]. right. left. exact U.
Qed.
Lemma cm_simplify_ok cs :
  (forall n c, In (n, c) cs -> wf_ucoord c /\ forall k, uc_labels c <> LPartial k) ->
  exists cs', cm_simplify cs = Ok cs' /\
    Forall2 (fun e e' => fst e' = fst e /\ converted (snd e) (snd e') (base_of (uc_units (snd e)))) cs cs'.
Proof.
  induction cs as [|[n c] t IH]; intros H; cbn [cm_simplify]; [exists []; split; [reflexivity|constructor]|].
  destruct (H n c (or_introl eq_refl)) as [W NP]. destruct (coord_simplify_ok c W NP) as (c' & E & R). rewrite E. cbn [bind].
  destruct IH as (t' & Et & Rt); [intros m d I; exact (H m d (or_intror I))|]. rewrite Et. cbn [bind].
  eexists. split; [reflexivity|]. constructor; [cbn; tauto|exact Rt].
Qed.
Lemma patch_simplify_ok p :
  match up_units p with Some q => absolute q | None => True end ->
  (forall n c, In (n, c) (up_coords p) -> wf_ucoord c /\ forall k, uc_labels c <> LPartial k) ->
  exists out, patch_simplify p = Ok out /\ up_units out = base_of (up_units p) /\
    match up_units p with
    | Some q => Forall2 (fun x y => stands_for y (mkQuant 1 (base_unit (u_dim (q_unit q)))) == stands_for x q) (up_data p) (up_data out)
    | None => up_data out = up_data p
    end /\
    Forall2 (fun e e' => fst e' = fst e /\ converted (snd e) (snd e') (base_of (uc_units (snd e)))) (up_coords p) (up_coords out).
Proof.
  intros A H. destruct (cm_simplify_ok _ H) as (cs & E & R). unfold patch_simplify.
  destruct (up_units p) as [q|] eqn:U; cbn [factor_and_unit]; rewrite E; cbn [bind]; eexists; (split; [reflexivity|]); cbn [up_units up_data up_coords base_of].
  - split; [reflexivity|]. split; [|exact R]. unfold absolute in A.
    assert (G : forall x y, y == x * in_base q -> stands_for y (mkQuant 1 (base_unit (u_dim (q_unit q)))) == stands_for x q).
    { intros x y Y. unfold stands_for. cbn [q_mag q_unit base_unit u_scale u_off]. rewrite Y. unfold in_base. rewrite A. ring. }
    destruct (Qeq_bool (in_base q) 1) eqn:B.
    + apply Qeq_bool_iff in B. induction (up_data p); constructor; [|assumption]. apply G. rewrite B. ring.
    + induction (up_data p); constructor; [|assumption]. apply G. reflexivity.
  - split; [reflexivity|]. split; [reflexivity|exact R].
Qed.

(** ** Setting *)
Lemma set_units_ok p u kw : NoDup (map fst kw) ->
  (forall n v, In (n, v) kw -> exists c, assoc n (up_coords p) = Some c /\ forall k, uc_labels c <> LPartial k) ->
  exists out, set_units p u kw = Ok out /\ up_data out = up_data p /\ up_units out = u /\
    map fst (up_coords out) = map fst (up_coords p) /\
    (forall n v, In (n, v) kw -> exists c c', assoc n (up_coords p) = Some c /\ assoc n (up_coords out) = Some c' /\
       uc_labels c' = uc_labels c /\ uc_time c' = uc_time c /\ uc_units c' = if uc_time c then Some in_seconds else v) /\
    forall n, ~ In n (map fst kw) -> assoc n (up_coords out) = assoc n (up_coords p).
Proof.
  intros ND H.
  destruct (cm_units_ok coord_set_units
    (fun c c' v => uc_labels c' = uc_labels c /\ uc_time c' = uc_time c /\ uc_units c' = if uc_time c then Some in_seconds else v)
    kw ND (up_coords p)) as (cs & E & NM & Y & O).
  { intros n v I. destruct (H n v I) as (c & A & NP). exists c. unfold coord_set_units.
    destruct (uc_labels c) as [? ? ? ?|?|k] eqn:L; [| |exfalso; exact (NP k eq_refl)];
      (eexists; split; [exact A|]; split; [reflexivity|]; cbn; tauto). }
  unfold set_units. rewrite E. cbn [bind]. eexists. split; [reflexivity|]. cbn. tauto.
Qed.

(** ** Limits of filters *)
Lemma in_dim_named q d : in_dim (FQuant q) d -> unit_eqb (q_unit q) dimensionless = false.
Proof. intros (_ & _ & _ & H). unfold unit_eqb. destruct (String.eqb_spec (u_name (q_unit q)) (u_name dimensionless)); [contradiction|reflexivity]. Qed.

(** A quantity in units of one over the unit of the dimension. *)
Lemma inverted_freq q u : in_dim (FQuant q) (inverse_dim (u_dim u)) -> proper_unit u -> inverse_dim (u_dim u) <> u_dim u ->
  exists m, inverted_quant (Some q) u = Ok (Some m, true) /\
    forall f, (m <= f <-> stands_for 1 q <= stands_for f (mkQuant 1 (inverse_unit u))) /\
              (f <= m <-> stands_for f (mkQuant 1 (inverse_unit u)) <= stands_for 1 q).
Proof.
  intros I P N. pose proof (in_dim_named _ _ I) as NM. destruct I as (D & O & S & _).
  unfold inverted_quant. rewrite NM, D, (dim_eqb_neq _ _ (fun e => N (eq_sym e))). cbn [bind fst snd].
  unfold to_unit. rewrite D. cbn [inverse_unit u_dim]. rewrite dim_eqb_refl. cbn [bind].
  eexists. split; [reflexivity|]. intros f. unfold stands_for. cbn [inverse_unit q_mag q_unit u_scale u_off].
  unfold proper_unit in *. pose proof (scale_nz u P) as Z.
  set (k := q_mag q * u_scale (q_unit q) + u_off (q_unit q)) in *.
  assert (E : (k - 0) / (1 / u_scale u) == k * u_scale u) by (field; exact Z).
  assert (E1 : 1 * q_mag q * u_scale (q_unit q) + u_off (q_unit q) == k) by (unfold k; ring).
  assert (E2 : f * 1 * (1 / u_scale u) + 0 == f / u_scale u) by (field; exact Z).
  rewrite E, E1, E2. split; split; intros H.
  - apply Qle_shift_div_l; assumption.
  - setoid_replace f with (f / u_scale u * u_scale u) by (field; exact Z). apply Qmult_le_compat_r; [exact H|]. apply Qlt_le_weak, P.
  - apply Qle_shift_div_r; assumption.
  - setoid_replace f with (f / u_scale u * u_scale u) by (field; exact Z). apply Qmult_le_compat_r; [exact H|]. apply Qlt_le_weak, P.
Qed.
(** A quantity in units of the dimension. *)
Lemma inverted_period q u : in_dim (FQuant q) (u_dim u) -> 0 < q_mag q -> proper_unit u -> u_off u == 0 ->
  exists m, inverted_quant (Some q) u = Ok (Some m, false) /\
    forall p, 0 < p ->
      (m <= 1 / p <-> stands_for p (mkQuant 1 u) <= stands_for 1 q) /\
      (1 / p <= m <-> stands_for 1 q <= stands_for p (mkQuant 1 u)).
Proof.
  intros I M P O. pose proof (in_dim_named _ _ I) as NM. destruct I as (D & Oq & S & _).
  assert (Mz : ~ q_mag q == 0) by (intros Z; rewrite Z in M; exact (Qlt_irrefl _ M)).
  unfold inverted_quant. rewrite NM, D, dim_eqb_refl, (Qeq_bool_false _ _ Mz). cbn [bind fst snd].
  unfold to_unit. cbn [inverse_unit q_unit u_dim]. rewrite D, dim_eqb_refl. cbn [bind].
  eexists. split; [reflexivity|]. intros p Pp. unfold stands_for. cbn [inverse_unit q_mag q_unit u_scale u_off].
  unfold proper_unit in *. set (s := u_scale (q_unit q)) in *. set (t := u_scale u) in *. set (m := q_mag q) in *.
  assert (Sz : ~ s == 0) by (intros Z; rewrite Z in S; exact (Qlt_irrefl _ S)).
  assert (Tz : ~ t == 0) by (intros Z; rewrite Z in P; exact (Qlt_irrefl _ P)).
  assert (Pz : ~ p == 0) by (intros Z; rewrite Z in Pp; exact (Qlt_irrefl _ Pp)).
  assert (MS : 0 < m * s) by nra.
  assert (MSz : ~ m * s == 0) by (intros Z; rewrite Z in MS; exact (Qlt_irrefl _ MS)).
  assert (E : (1 / m * (1 / s) + 0 - 0) / (1 / t) == t / (m * s)) by (field; tauto).
  assert (E1 : 1 * m * s + u_off (q_unit q) == m * s) by (rewrite Oq; ring).
  assert (E2 : p * 1 * t + u_off u == p * t) by (rewrite O; ring).
  assert (A : t / (m * s) * (p * (m * s)) == p * t) by (field; tauto).
  assert (B : 1 / p * (p * (m * s)) == m * s) by (field; tauto).
  assert (K : 0 <= p * (m * s)) by nra.
  rewrite E, E1, E2. split; split; intros H.
  - pose proof (Qmult_le_compat_r _ _ _ H K) as L. rewrite A, B in L. exact L.
  - apply Qle_shift_div_r; [exact MS|]. setoid_replace (1 / p * (m * s)) with (m * s / p) by (field; tauto).
    apply Qle_shift_div_l; [exact Pp|]. rewrite (Qmult_comm t p). exact H.
  - pose proof (Qmult_le_compat_r _ _ _ H K) as L. rewrite A, B in L. exact L.
  - apply Qle_shift_div_l; [exact MS|]. setoid_replace (1 / p * (m * s)) with (m * s / p) by (field; tauto).
    apply Qle_shift_div_r; [exact Pp|]. rewrite (Qmult_comm t p). exact H.
Qed.

Lemma inverted_none u : inverted_quant None u = Ok (None, true).
Proof. reflexivity. Qed.
Lemma same_named_eqb p q : q_unit p = q_unit q -> unit_eqb (q_unit p) (q_unit q) = true.
Proof. intros ->. unfold unit_eqb. apply String.eqb_refl. Qed.

Lemma filter_frequencies a1 a2 u : proper_unit u -> inverse_dim (u_dim u) <> u_dim u ->
  in_dim a1 (inverse_dim (u_dim u)) -> in_dim a2 (inverse_dim (u_dim u)) -> same_named a1 a2 ->
  exists lim, filter_units a1 a2 (Some u) = Ok lim /\ forall f, within lim f <-> meets a1 a2 f (inverse_unit u).
Proof.
  intros P N I1 I2 S. unfold filter_units.
  destruct a1 as [|x|q1]; [|destruct I1|]; (destruct a2 as [|y|q2]; [|destruct I2|]); cbn [is_quant orb negb farg_quant farg_num].
  - eexists. split; [reflexivity|]. intros f. cbn. tauto.
  - destruct (inverted_freq q2 u I2 P N) as (m2 & E2 & K2). cbn [bind]. rewrite inverted_none. cbn [bind]. rewrite E2. cbn [bind fst snd orb negb].
    eexists. split; [reflexivity|]. intros f. destruct (K2 f). unfold within, meets. cbn [fst snd]. tauto.
  - destruct (inverted_freq q1 u I1 P N) as (m1 & E1 & K1). cbn [bind]. rewrite E1. cbn [bind]. rewrite inverted_none. cbn [bind fst snd orb negb].
    eexists. split; [reflexivity|]. intros f. destruct (K1 f). unfold within, meets. cbn [fst snd]. tauto.
  - destruct (inverted_freq q1 u I1 P N) as (m1 & E1 & K1). destruct (inverted_freq q2 u I2 P N) as (m2 & E2 & K2).
    cbn [same_named] in S. rewrite (same_named_eqb _ _ S). cbn [bind]. rewrite E1. cbn [bind]. rewrite E2. cbn [bind fst snd orb negb].
    eexists. split; [reflexivity|]. intros f. destruct (K1 f), (K2 f). unfold within, meets. cbn [fst snd]. tauto.
Qed.
Lemma filter_periods q1 q2 u : proper_unit u -> u_off u == 0 ->
  in_dim (FQuant q1) (u_dim u) -> in_dim (FQuant q2) (u_dim u) -> q_unit q1 = q_unit q2 ->
  positive (FQuant q1) -> positive (FQuant q2) ->
  exists lim, filter_units (FQuant q1) (FQuant q2) (Some u) = Ok lim /\
    forall p, 0 < p -> (within lim (1 / p) <-> meets (FQuant q1) (FQuant q2) p u).
Proof.
  intros P O I1 I2 S P1 P2. cbn [positive] in P1, P2. unfold filter_units. cbn [is_quant orb negb farg_quant].
  destruct (inverted_period q1 u I1 P1 P O) as (m1 & E1 & K1). destruct (inverted_period q2 u I2 P2 P O) as (m2 & E2 & K2).
  rewrite (same_named_eqb _ _ S). cbn [bind]. rewrite E1. cbn [bind]. rewrite E2. cbn [bind fst snd orb negb].
  eexists. split; [reflexivity|]. intros p Pp. destruct (K1 p Pp), (K2 p Pp). unfold within, meets. cbn [fst snd]. tauto.
Qed.
(** A single period limits the other side. *)
Lemma filter_one_period a1 a2 u : proper_unit u -> u_off u == 0 ->
  in_dim a1 (u_dim u) -> in_dim a2 (u_dim u) -> positive a1 -> positive a2 -> a1 = FNone \/ a2 = FNone ->
  exists lim, filter_units a1 a2 (Some u) = Ok lim /\
    forall p, 0 < p -> (within lim (1 / p) <-> meets a2 a1 p u).
Proof.
  intros P O I1 I2 P1 P2 H. unfold filter_units.
  destruct a1 as [|x|q1]; [|destruct I1|]; (destruct a2 as [|y|q2]; [|destruct I2|]); cbn [is_quant orb negb farg_quant farg_num].
  - eexists. split; [reflexivity|]. intros p Pp. cbn. tauto.
  - destruct (inverted_period q2 u I2 P2 P O) as (m2 & E2 & K2). cbn [bind]. rewrite inverted_none. cbn [bind]. rewrite E2. cbn [bind fst snd orb negb].
    eexists. split; [reflexivity|]. intros p Pp. destruct (K2 p Pp). unfold within, meets. cbn [fst snd]. tauto.
  - destruct (inverted_period q1 u I1 P1 P O) as (m1 & E1 & K1). cbn [bind]. rewrite E1. cbn [bind]. rewrite inverted_none. cbn [bind fst snd orb negb].
    eexists. split; [reflexivity|]. intros p Pp. destruct (K1 p Pp). unfold within, meets. cbn [fst snd]. tauto.
  - destruct H; discriminate.
Qed.

Lemma inverted_other q u : u_dim (q_unit q) <> u_dim u -> u_dim (q_unit q) <> inverse_dim (u_dim u) ->
  inverted_quant (Some q) u = Err UnitError.
Proof.
  intros N1 N2. unfold inverted_quant. destruct (unit_eqb (q_unit q) dimensionless); [reflexivity|].
  rewrite (dim_eqb_neq _ _ (fun e => N1 (eq_sym e))). cbn [bind fst]. unfold to_unit. cbn [inverse_unit u_dim].
  rewrite (dim_eqb_neq _ _ N2). reflexivity.
Qed.
Lemma filter_refuses_no_unit a1 a2 : ~ (plain a1 /\ plain a2) -> filter_units a1 a2 None = Err UnitError.
Proof. intros H. destruct a1 as [|x|q], a2 as [|y|r]; try reflexivity; exfalso; apply H; split; exact I. Qed.
Lemma filter_refuses_mixed x q u : filter_units (FNum x) (FQuant q) (Some u) = Err UnitError /\ filter_units (FQuant q) (FNum x) (Some u) = Err UnitError.
Proof.
  unfold filter_units. cbn [is_quant orb negb farg_quant q_unit]. split.
  - destruct (unit_eqb dimensionless (q_unit q)); reflexivity.
  - destruct (unit_eqb (q_unit q) dimensionless) eqn:E; [|reflexivity]. cbn [bind inverted_quant]. rewrite E. reflexivity.
Qed.
Lemma filter_refuses_units p q u : u_name (q_unit p) <> u_name (q_unit q) -> filter_units (FQuant p) (FQuant q) (Some u) = Err UnitError.
Proof.
  intros N. unfold filter_units. cbn [is_quant orb negb farg_quant]. unfold unit_eqb.
  destruct (String.eqb_spec (u_name (q_unit p)) (u_name (q_unit q))); [contradiction|reflexivity].
Qed.
Lemma filter_refuses_dim a1 a2 q u : u_dim (q_unit q) <> u_dim u -> u_dim (q_unit q) <> inverse_dim (u_dim u) ->
  a1 = FQuant q /\ (a2 = FNone \/ exists m, a2 = FQuant (mkQuant m (q_unit q))) \/
  a2 = FQuant q /\ (a1 = FNone \/ exists m, a1 = FQuant (mkQuant m (q_unit q))) ->
  filter_units a1 a2 (Some u) = Err UnitError.
Proof.
  intros N1 N2 H. pose proof (inverted_other q u N1 N2) as E.
  assert (E' : forall m, inverted_quant (Some (mkQuant m (q_unit q))) u = Err UnitError) by (intros m; apply inverted_other; assumption).
  unfold filter_units. destruct H as [[-> [-> |[m ->]]]|[-> [-> |[m ->]]]]; cbn [is_quant orb negb farg_quant farg_num q_unit].
  - cbn [bind]. rewrite E. reflexivity.
  - rewrite (same_named_eqb q q eq_refl). cbn [bind]. rewrite E. reflexivity.
  - cbn [bind]. rewrite inverted_none. cbn [bind]. rewrite E. reflexivity.
  - rewrite (same_named_eqb q q eq_refl). cbn [bind]. rewrite E'. reflexivity.
Qed.
