(** Properties C63 and C64: units of data and coordinates, and limits of filters.
    Model: UnitsModel.v. Specification vocabulary: UnitsSpec.v. *)
From Coq Require Import QArith List Strings.String Bool Lia Lqa.
From Verif Require Import Base FrameModel UnitsModel UnitsSpec UnitsProofs UnitsProofs2.
Import ListNotations.
Local Open Scope Q_scope.
Local Open Scope string_scope.

(** Some units; the dimensionality lists length, time, temperature, mass. *)
Definition metre := mkUnit "m" [1; 0; 0; 0]%Z 1 0.
Definition foot := mkUnit "ft" [1; 0; 0; 0]%Z (3048 # 10000) 0.
Definition kilometre := mkUnit "km" [1; 0; 0; 0]%Z 1000 0.
Definition second := mkUnit "s" [0; 1; 0; 0]%Z 1 0.
Definition milli := mkUnit "ms" [0; 1; 0; 0]%Z (1 # 1000) 0.
Definition hertz := mkUnit "Hz" [0; -1; 0; 0]%Z 1 0.
Definition celsius := mkUnit "degC" [0; 0; 1; 0]%Z 1 (27315 # 100).
Definition kelvin := mkUnit "K" [0; 0; 1; 0]%Z 1 0.
Definition one (u : unit) : quant := mkQuant 1 u.
Ltac easy_unit := repeat split; try discriminate; try reflexivity; unfold proper_unit; cbn; lra.

(** ** C63: conversions keep what numbers stand for *)

(** A number is converted to the only number that stands for the same amount in the
    new units. *)
Theorem C63_convert : forall x from to, same_dim from to -> proper to ->
  exists y, convert x (Some to) (Some from) = Ok y /\ stands_for y to == stands_for x from /\
    forall z, stands_for z to == stands_for x from -> z == y.
Proof. exact convert_ok. Qed.
Print Assumptions C63_convert.
(** 20 degC in units of 2 K. *)
Example C63_convert_applies : same_dim (one celsius) (mkQuant 2 kelvin) /\ proper (mkQuant 2 kelvin) /\
  exists y, convert 20 (Some (mkQuant 2 kelvin)) (Some (one celsius)) = Ok y /\ y == 29315 # 200.
Proof. split; [reflexivity|]. split; [easy_unit|]. eexists. split; reflexivity. Qed.

(** Units that measure something else are refused. *)
Theorem C63_refuses : forall x from to, ~ same_dim from to -> convert x (Some to) (Some from) = Err UnitError.
Proof. exact convert_err. Qed.
Print Assumptions C63_refuses.
Example C63_refuses_applies : ~ same_dim (one metre) (one second).
Proof. discriminate. Qed.

(** There and back is the number itself. *)
Theorem C63_back : forall x y from to, proper from -> proper to ->
  convert x (Some to) (Some from) = Ok y -> exists z, convert y (Some from) (Some to) = Ok z /\ z == x.
Proof. exact convert_back. Qed.
Print Assumptions C63_back.
Example C63_back_applies : proper (one metre) /\ proper (one foot) /\
  exists y z, convert 3 (Some (one foot)) (Some (one metre)) = Ok y /\ ~ y == 3 /\ convert y (Some (one metre)) (Some (one foot)) = Ok z /\ z == 3.
Proof. split; [easy_unit|]. split; [easy_unit|]. eexists. eexists. split; [reflexivity|]. split; [discriminate|]. split; reflexivity. Qed.

(** A detour over other units makes no difference. *)
Theorem C63_via : forall x y z w from mid to, proper mid -> proper to ->
  convert x (Some mid) (Some from) = Ok y -> convert y (Some to) (Some mid) = Ok z ->
  convert x (Some to) (Some from) = Ok w -> z == w.
Proof. exact convert_via. Qed.
Print Assumptions C63_via.
Example C63_via_applies : proper (one foot) /\ proper (one kilometre) /\
  exists y z w, convert 3 (Some (one foot)) (Some (one metre)) = Ok y /\ convert y (Some (one kilometre)) (Some (one foot)) = Ok z /\
    convert 3 (Some (one kilometre)) (Some (one metre)) = Ok w /\ w == 3 # 1000.
Proof. split; [easy_unit|]. split; [easy_unit|]. do 3 eexists. repeat split; reflexivity. Qed.

(** Earlier conversions make no difference to later ones, although their factors are
    kept, as long as quantities that compare equal have the same zero. *)
Theorem C63_history : forall calls,
  (forall k q, In k calls -> mentions k q -> proper_unit (q_unit q)) ->
  (forall k k' p q, In k calls -> In k' calls -> mentions k p -> mentions k' q ->
     quant_eqb p q = true -> u_off (q_unit p) == u_off (q_unit q)) ->
  Forall2 same_answer (run_calls [] calls) (map answer calls).
Proof. exact history_ok. Qed.
Print Assumptions C63_history.
Definition lengths : list call :=
  [([1; 2], Some (one metre), Some (one kilometre)); ([5], Some (one metre), Some (mkQuant 1000 metre)); ([5], Some (one second), Some (one metre))].
Example C63_history_applies :
  (forall k q, In k lengths -> mentions k q -> proper_unit (q_unit q)) /\
  (forall k k' p q, In k lengths -> In k' lengths -> mentions k p -> mentions k' q ->
     quant_eqb p q = true -> u_off (q_unit p) == u_off (q_unit q)) /\
  quant_eqb (one kilometre) (mkQuant 1000 metre) = true.
Proof.
  assert (H : forall k q, In k lengths -> mentions k q -> proper_unit (q_unit q) /\ u_off (q_unit q) == 0).
  { intros k q [<-|[<-|[<-|[]]]] [E|E]; injection E as <-; easy_unit. }
  split; [intros k q I M; exact (proj1 (H k q I M))|]. split; [|reflexivity].
  intros k k' p q I I' M M' _. rewrite (proj2 (H k p I M)), (proj2 (H k' q I' M')). reflexivity.
Qed.

(** REFUTED: in general they do. 1 degC and 274.15 K are equal as quantities, so the
    factors kept for one are used for the other (units.py 135-143): after a
    conversion from units of 274.15 K to K, 20 degC are 5483 K. *)
Theorem C63_history_refuted : exists calls,
  (forall k q, In k calls -> mentions k q -> proper q) /\
  ~ Forall2 same_answer (run_calls [] calls) (map answer calls) /\
  exists x, nth_error (run_calls [] calls) 1 = Some (Ok [x]) /\ x == 5483 /\
            exists y, nth_error (map answer calls) 1 = Some (Ok [y]) /\ y == 29315 # 100.
Proof.
  exists [([1], Some (one kelvin), Some (mkQuant (27415 # 100) kelvin)); ([20], Some (one kelvin), Some (one celsius))].
  split; [intros k q [<-|[<-|[]]] [E|E]; injection E as <-; easy_unit|]. split.
  - intros H. inversion H as [|? ? ? ? _ H2]; subst. inversion H2 as [|? ? ? ? H3 _]; subst. vm_compute in H3.
    inversion H3 as [|? ? ? ? H4 _]; subst. discriminate.
  - eexists. split; [reflexivity|]. split; [reflexivity|]. eexists. split; reflexivity.
Qed.
Print Assumptions C63_history_refuted.

(** A coordinate keeps its length and its labels what they stand for; one without
    units gets them; times stay as they are. *)
Theorem C63_coord : forall c u, wf_ucoord c -> convertible c u ->
  exists c', coord_convert c u = Ok c' /\ converted c c' u.
Proof. exact coord_convert_ok. Qed.
Print Assumptions C63_coord.
(** 100, 110, ..., 190 feet. *)
Definition feet := mkU (LRange 100 200 10 10) false (Some (one foot)).
Lemma feet_wf : wf_ucoord feet.
Proof. unfold wf_ucoord, feet. cbn [uc_labels uc_time uc_units]. split; [split; [lia|]; split; [discriminate|reflexivity]|]. split; [discriminate|easy_unit]. Qed.
Example C63_coord_applies : wf_ucoord feet /\ convertible feet (Some (one metre)) /\
  exists c' x, coord_convert feet (Some (one metre)) = Ok c' /\ label_count (uc_labels c') = 10%Z /\
    label (uc_labels c') 3 = Some x /\ x == 39624 # 1000.
Proof.
  split; [exact feet_wf|]. split.
  - split; [discriminate|]. right. right. exists (one foot), (one metre). easy_unit.
  - eexists. eexists. split; [vm_compute; reflexivity|]. repeat split.
Qed.

(** Units that do not fit a coordinate are refused, and so are none. *)
Theorem C63_coord_refuses : forall c from u, uc_time c = false -> uc_units c = Some from -> (forall n, uc_labels c <> LPartial n) ->
  match u with Some to => ~ same_dim from to | None => True end -> coord_convert c u = Err UnitError.
Proof. exact coord_convert_refuses. Qed.
Print Assumptions C63_coord_refuses.
Example C63_coord_refuses_applies : uc_time feet = false /\ uc_units feet = Some (one foot) /\ ~ same_dim (one foot) (one second).
Proof. repeat split; discriminate. Qed.

(** patch.convert_units: data and the coordinates named are converted, everything
    else stays. *)
Theorem C63_patch : forall p u kw, NoDup (map fst kw) ->
  match u, up_units p with Some to, Some from => same_dim from to /\ proper to | _, _ => True end ->
  (forall n v, In (n, v) kw -> exists c, assoc n (up_coords p) = Some c /\ wf_ucoord c /\ convertible c v) ->
  exists out, patch_convert p u kw = Ok out /\ data_converted p out u /\
    map fst (up_coords out) = map fst (up_coords p) /\
    (forall n v, In (n, v) kw -> exists c c', assoc n (up_coords p) = Some c /\ assoc n (up_coords out) = Some c' /\ converted c c' v) /\
    forall n, ~ In n (map fst kw) -> assoc n (up_coords out) = assoc n (up_coords p).
Proof. exact patch_convert_ok. Qed.
Print Assumptions C63_patch.
(** Temperatures at times and distances. *)
Definition times := mkU (LRange 0 4 2 2) true (Some in_seconds).
Definition warm := mkUP [20; 25] (Some (one celsius)) [("time", times); ("distance", feet); ("depth", mkU (LArray [7; 3]) false None)].
Example C63_patch_applies : exists out,
  patch_convert warm (Some (one kelvin)) [("distance", Some (one metre)); ("depth", Some (one metre))] = Ok out /\
  data_converted warm out (Some (one kelvin)) /\ assoc "time" (up_coords out) = Some times.
Proof.
  destruct (C63_patch warm (Some (one kelvin)) [("distance", Some (one metre)); ("depth", Some (one metre))]) as (out & E & D & _ & _ & O).
  - constructor; [intros [H|[]]; discriminate|]. constructor; [intros []|constructor].
  - easy_unit.
  - intros n v [[= <- <-]|[[= <- <-]|[]]].
    + exists feet. split; [reflexivity|]. split; [exact feet_wf|]. split; [discriminate|]. right. right. exists (one foot), (one metre). easy_unit.
    + eexists. split; [reflexivity|]. split; [repeat split; discriminate|]. split; [discriminate|]. right. left. reflexivity.
  - exists out. split; [exact E|]. split; [exact D|]. apply O. intros [H|[H|[]]]; discriminate.
Qed.
(** Data units that do not fit are refused whatever is asked of the coordinates. *)
Theorem C63_patch_refuses : forall p u from kw, up_units p = Some from -> ~ same_dim from u ->
  patch_convert p (Some u) kw = Err UnitError.
Proof. exact patch_convert_refuses. Qed.
Print Assumptions C63_patch_refuses.
Example C63_patch_refuses_applies : up_units warm = Some (one celsius) /\ ~ same_dim (one celsius) (one metre).
Proof. split; [reflexivity|discriminate]. Qed.
(** A name without a coordinate is refused. *)
Theorem C63_unknown : forall p u kw n v, In (n, v) kw -> assoc n (up_coords p) = None ->
  (exists e, set_units p u kw = Err e) /\ (exists e, patch_convert p u kw = Err e) /\
  (kw = [(n, v)] -> set_units p u kw = Err KeyError /\ patch_convert p None kw = Err KeyError).
Proof. exact unknown_refused. Qed.
Print Assumptions C63_unknown.
Example C63_unknown_applies : assoc "velocity" (up_coords warm) = None /\
  patch_convert warm None [("velocity", None)] = Err KeyError.
Proof. split; reflexivity. Qed.

(** patch.simplify_units: data and all coordinates are in base units and stand for
    the same, when the data units start at zero. *)
Theorem C63_simplify : forall p,
  match up_units p with Some q => absolute q | None => True end ->
  (forall n c, In (n, c) (up_coords p) -> wf_ucoord c /\ forall k, uc_labels c <> LPartial k) ->
  exists out, patch_simplify p = Ok out /\ up_units out = base_of (up_units p) /\
    match up_units p with
    | Some q => Forall2 (fun x y => stands_for y (mkQuant 1 (base_unit (u_dim (q_unit q)))) == stands_for x q) (up_data p) (up_data out)
    | None => up_data out = up_data p
    end /\
    Forall2 (fun e e' => fst e' = fst e /\ converted (snd e) (snd e') (base_of (uc_units (snd e)))) (up_coords p) (up_coords out).
Proof. exact patch_simplify_ok. Qed.
Print Assumptions C63_simplify.
Definition moved := mkUP [2; 3] (Some (mkQuant 3 kilometre)) [("distance", feet)].
Example C63_simplify_applies : absolute (mkQuant 3 kilometre) /\
  (forall n c, In (n, c) (up_coords moved) -> wf_ucoord c /\ forall k, uc_labels c <> LPartial k) /\
  exists out x y, patch_simplify moved = Ok out /\ up_data out = [x; y] /\ x == 6000 /\ y == 9000.
Proof.
  split; [reflexivity|]. split.
  - intros n c [[= <- <-]|[]]. split; [exact feet_wf|discriminate].
  - do 3 eexists. split; [vm_compute; reflexivity|]. repeat split.
Qed.
(** REFUTED: not so for data in degC, which are multiplied by the 274.15 K that 1 degC
    is (units.py 123-132, proc/units.py 140-144): 20 degC become 5483 K. *)
Theorem C63_simplify_refuted : exists p out x, patch_simplify p = Ok out /\
  up_units p = Some (one celsius) /\ up_data p = [20] /\ up_coords p = [] /\
  up_data out = [x] /\ x == 5483 /\ up_units out = Some (one (base_unit (u_dim kelvin))) /\
  exists y, convert 20 (Some (one kelvin)) (Some (one celsius)) = Ok y /\ y == 29315 # 100.
Proof.
  exists (mkUP [20] (Some (one celsius)) []). do 2 eexists. split; [reflexivity|]. repeat (split; [reflexivity|]).
  eexists. split; reflexivity.
Qed.
Print Assumptions C63_simplify_refuted.

(** patch.set_units: only the units named change, and data keep the units given. *)
Theorem C63_set_units : forall p u kw, NoDup (map fst kw) ->
  (forall n v, In (n, v) kw -> exists c, assoc n (up_coords p) = Some c /\ forall k, uc_labels c <> LPartial k) ->
  exists out, set_units p u kw = Ok out /\ up_data out = up_data p /\ up_units out = u /\
    map fst (up_coords out) = map fst (up_coords p) /\
    (forall n v, In (n, v) kw -> exists c c', assoc n (up_coords p) = Some c /\ assoc n (up_coords out) = Some c' /\
       uc_labels c' = uc_labels c /\ uc_time c' = uc_time c /\ uc_units c' = if uc_time c then Some in_seconds else v) /\
    forall n, ~ In n (map fst kw) -> assoc n (up_coords out) = assoc n (up_coords p).
Proof. exact set_units_ok. Qed.
Print Assumptions C63_set_units.
Example C63_set_units_applies : exists out, set_units warm (Some (one kelvin)) [("depth", Some (one metre)); ("time", Some (one milli))] = Ok out /\
  up_units out = Some (one kelvin) /\ up_data out = up_data warm /\ assoc "time" (up_coords out) = Some times.
Proof. eexists. split; [vm_compute; reflexivity|]. repeat split. Qed.
(** REFUTED: setting the units of a coordinate is not all it does: the data lose
    theirs (proc/units.py 23-60, where no data units means None). *)
Theorem C63_set_units_refuted : exists p out, set_units p None [("distance", Some (one metre))] = Ok out /\
  up_units p = Some (one celsius) /\ up_units out = None.
Proof. exists warm. eexists. split; [vm_compute; reflexivity|]. repeat split. Qed.
Print Assumptions C63_set_units_refuted.
(** REFUTED: units cannot be set, converted or simplified for a coordinate that has a
    length only, such as an aggregation leaves: the methods of CoordPartial take
    keywords only and are called with a position, a TypeError (core/coords.py
    1057-1064). Simplifying fails for the whole patch. *)
Theorem C63_no_labels_refuted : exists p, up_coords p = [("distance", mkU (LPartial 1) false None)] /\
  (forall u, set_units p u [("distance", Some (one metre))] = Err TypeError) /\
  (forall kw, patch_convert p None (("distance", Some (one metre)) :: kw) = Err TypeError) /\
  patch_simplify p = Err TypeError.
Proof.
  exists (mkUP [1] None [("distance", mkU (LPartial 1) false None)]). split; [reflexivity|].
  split; [intros u; reflexivity|]. split; [intros kw; reflexivity|reflexivity].
Qed.
Print Assumptions C63_no_labels_refuted.

(** ** C64: limits of filters *)

(** Plain numbers are used as they are, with or without units of the dimension. *)
Theorem C64_plain : forall a1 a2 u, plain a1 -> plain a2 -> filter_units a1 a2 u = Ok (number a1, number a2).
Proof. intros [|x|q] [|y|r] u P1 P2; try contradiction; reflexivity. Qed.
Print Assumptions C64_plain.
Example C64_plain_applies : plain FNone /\ plain (FNum 10) /\ filter_units FNone (FNum 10) None = Ok (None, Some 10).
Proof. repeat split. Qed.

(** Frequencies, one or two: exactly the components between them pass. *)
Theorem C64_frequencies : forall a1 a2 u, proper_unit u -> inverse_dim (u_dim u) <> u_dim u ->
  in_dim a1 (inverse_dim (u_dim u)) -> in_dim a2 (inverse_dim (u_dim u)) -> same_named a1 a2 ->
  exists lim, filter_units a1 a2 (Some u) = Ok lim /\ forall f, within lim f <-> meets a1 a2 f (inverse_unit u).
Proof. exact filter_frequencies. Qed.
Print Assumptions C64_frequencies.
(** At least 1 Hz on times in milliseconds: 0.001 per ms. *)
Example C64_frequencies_applies : proper_unit milli /\ inverse_dim (u_dim milli) <> u_dim milli /\
  in_dim (FQuant (one hertz)) (inverse_dim (u_dim milli)) /\
  exists x, filter_units (FQuant (one hertz)) FNone (Some milli) = Ok (Some x, None) /\ x == 1 # 1000.
Proof. split; [easy_unit|]. split; [discriminate|]. split; [easy_unit|]. eexists. split; reflexivity. Qed.

(** Two periods: exactly the components with a period between them pass. *)
Theorem C64_periods : forall q1 q2 u, proper_unit u -> u_off u == 0 ->
  in_dim (FQuant q1) (u_dim u) -> in_dim (FQuant q2) (u_dim u) -> q_unit q1 = q_unit q2 ->
  positive (FQuant q1) -> positive (FQuant q2) ->
  exists lim, filter_units (FQuant q1) (FQuant q2) (Some u) = Ok lim /\
    forall p, 0 < p -> (within lim (1 / p) <-> meets (FQuant q1) (FQuant q2) p u).
Proof. exact filter_periods. Qed.
Print Assumptions C64_periods.
Example C64_periods_applies : proper_unit second /\ in_dim (FQuant (mkQuant 20 milli)) (u_dim second) /\
  exists x y, filter_units (FQuant (mkQuant 20 milli)) (FQuant (mkQuant 100 milli)) (Some second) = Ok (Some x, Some y) /\ x == 10 /\ y == 50.
Proof. split; [easy_unit|]. split; [easy_unit|]. do 2 eexists. repeat split; reflexivity. Qed.

(** One period limits the other side: given as the lower limit it is the longest
    period that passes, given as the upper limit the shortest. *)
Theorem C64_one_period : forall a1 a2 u, proper_unit u -> u_off u == 0 ->
  in_dim a1 (u_dim u) -> in_dim a2 (u_dim u) -> positive a1 -> positive a2 -> a1 = FNone \/ a2 = FNone ->
  exists lim, filter_units a1 a2 (Some u) = Ok lim /\
    forall p, 0 < p -> (within lim (1 / p) <-> meets a2 a1 p u).
Proof. exact filter_one_period. Qed.
Print Assumptions C64_one_period.
Example C64_one_period_applies : in_dim (FQuant (mkQuant 10 second)) (u_dim second) /\ positive (FQuant (mkQuant 10 second)) /\
  exists x, filter_units (FQuant (mkQuant 10 second)) FNone (Some second) = Ok (Some x, None) /\ x == 1 # 10.
Proof. split; [easy_unit|]. split; [reflexivity|]. eexists. split; reflexivity. Qed.
(** REFUTED: so a single limit does not mean what it means next to another one: at
    least 1 s and at most 10 s lets periods of 5 s pass and none of 20 s; at most
    10 s, with no other limit, lets those of 20 s pass and none of 5 s
    (units.py 350-356; the docstring shows the numbers). *)
Theorem C64_one_sided_refuted : exists both upper,
  filter_units (FQuant (one second)) (FQuant (mkQuant 10 second)) (Some second) = Ok both /\
  filter_units FNone (FQuant (mkQuant 10 second)) (Some second) = Ok upper /\
  within both (1 / 5) /\ ~ within both (1 / 20) /\ ~ within upper (1 / 5) /\ within upper (1 / 20).
Proof.
  do 2 eexists. split; [reflexivity|]. split; [reflexivity|]. unfold within. cbn [fst snd].
  repeat split; try (intros [H1 H2]); vm_compute in *; congruence.
Qed.
Print Assumptions C64_one_sided_refuted.

(** Quantities need a dimension with units, units that are the same, no plain number
    beside them, and either the units of the dimension or one over them. *)
Theorem C64_refuses :
  (forall a1 a2, ~ (plain a1 /\ plain a2) -> filter_units a1 a2 None = Err UnitError) /\
  (forall x q u, filter_units (FNum x) (FQuant q) (Some u) = Err UnitError /\ filter_units (FQuant q) (FNum x) (Some u) = Err UnitError) /\
  (forall p q u, u_name (q_unit p) <> u_name (q_unit q) -> filter_units (FQuant p) (FQuant q) (Some u) = Err UnitError) /\
  (forall a1 a2 q u, u_dim (q_unit q) <> u_dim u -> u_dim (q_unit q) <> inverse_dim (u_dim u) ->
    a1 = FQuant q /\ (a2 = FNone \/ exists m, a2 = FQuant (mkQuant m (q_unit q))) \/
    a2 = FQuant q /\ (a1 = FNone \/ exists m, a1 = FQuant (mkQuant m (q_unit q))) ->
    filter_units a1 a2 (Some u) = Err UnitError).
Proof.
  exact (conj filter_refuses_no_unit (conj filter_refuses_mixed (conj filter_refuses_units filter_refuses_dim))).
Qed.
Print Assumptions C64_refuses.
Example C64_refuses_applies : u_name metre <> u_name foot /\ u_dim metre <> u_dim second /\ u_dim metre <> inverse_dim (u_dim second) /\
  filter_units (FQuant (one metre)) FNone (Some second) = Err UnitError.
Proof. repeat split; discriminate. Qed.
