(** Proofs for the smoothing of masks (C105). *)
From Verif Require Import Base BaseFacts FrameModel ChunkModel CmProofs UnitsModel SigmaModel SigmaSpec.
From Coq Require Import Strings.String QArith Qabs Lia Lqa.
Local Open Scope Z_scope.
Local Open Scope list_scope.

Lemma rhe_even p q : 0 < q -> 2 * (p mod q) = q -> Z.even (round_half_even p q) = true.
Proof.
  intros P E. unfold round_half_even. destruct (Z.ltb_spec q 0); [lia|]. rewrite Z.abs_eq by lia. destruct (Z.ltb_spec (2 * (p mod q)) q); [lia|]. destruct (Z.ltb_spec q (2 * (p mod q))); [lia|].
  destruct (Z.even (p / q)) eqn:Ev; [exact Ev|]. rewrite Z.even_add, Ev. reflexivity.
Qed.
Lemma rhe_cases p q : 0 < q -> let n := round_half_even p q in 2 * (n * q - p) <= q /\ - q <= 2 * (n * q - p) /\ ((2 * (n * q - p) = q \/ 2 * (n * q - p) = - q) -> Z.even n = true).
Proof.
  intros P. cbn zeta. pose proof (Z_div_mod_eq_full p q) as D. pose proof (Z.mod_pos_bound p q P) as B. pose proof (rhe_even p q P) as Ev. revert Ev. unfold round_half_even. destruct (Z.ltb_spec q 0); [lia|]. rewrite Z.abs_eq by lia.
  destruct (Z.ltb_spec (2 * (p mod q)) q); [intros _; split; [nia|]; split; nia|]. destruct (Z.ltb_spec q (2 * (p mod q))); [intros _; split; [nia|]; split; nia|]. intros Ev. assert (E : 2 * (p mod q) = q) by lia. specialize (Ev E).
  destruct (Z.even (p / q)) eqn:X; (split; [nia|]; split; [nia|]; intros _; exact Ev).
Qed.
Lemma round_nearest x : nearest x (q_round x).
Proof.
  destruct x as [p q]. unfold nearest, q_round. cbn [Qnum Qden]. destruct (rhe_cases p (Zpos q) ltac:(lia)) as (A & B & C). cbn zeta in *. set (n := round_half_even p (Zpos q)) in *. clearbody n.
  assert (E : (inject_Z n - (p # q) == (n * Zpos q - p) # q)%Q) by (unfold Qeq, Qminus, Qplus, Qopp, inject_Z; cbn; lia).
  rewrite E. unfold Qabs, Qle, Qeq. cbn [Qnum Qden]. split; [lia|]. intros H. apply C. lia.
Qed.
Lemma nearest_unique x n m : nearest x n -> nearest x m -> n = m.
Proof.
  intros [A B] [C D]. apply Qabs_Qle_condition in A. apply Qabs_Qle_condition in C.
  assert (L : (inject_Z n - inject_Z m <= 1)%Q /\ (inject_Z m - inject_Z n <= 1)%Q) by (split; lra). assert (n - m <= 1 /\ m - n <= 1) as [L1 L2].
  { destruct L as [L1 L2]. unfold Qle, Qminus, Qplus, Qopp, inject_Z in L1, L2. cbn in L1, L2. lia. }
  destruct (Z.eq_dec n m) as [|N]; [assumption|]. exfalso.
  assert (K : n = m + 1 \/ m = n + 1) by lia. assert (Ev : Z.even n = true /\ Z.even m = true).
  { destruct K as [->| ->]; rewrite inject_Z_plus in *; change (inject_Z 1) with 1%Q in *; (split; [apply B|apply D]).
    - assert (X : (inject_Z m + 1 - x == 1 # 2)%Q) by lra. rewrite X. reflexivity.
    - assert (X : (inject_Z m - x == - (1 # 2))%Q) by lra. rewrite X. reflexivity.
    - assert (X : (inject_Z n - x == - (1 # 2))%Q) by lra. rewrite X. reflexivity.
    - assert (X : (inject_Z n + 1 - x == 1 # 2)%Q) by lra. rewrite X. reflexivity. }
  destruct Ev as [E1 E2]. destruct K as [->| ->]; [rewrite Z.even_add, E2 in E1|rewrite Z.even_add, E1 in E2]; discriminate.
Qed.
Section S.
Context (len : string -> Z) (count : string -> Q -> result Z).
Lemma samples_ok d v n : samples_of len count d v = Ok n <-> width len count d v n.
Proof.
  destruct v as [|z|q|q]; cbn [samples_of width]; try (split; [intros [= <-]; reflexivity|intros ->; reflexivity]).
  destruct (Qle_bool 0 q && Qle_bool q 1) eqn:E.
  - apply andb_prop in E as [A B]. apply Qle_bool_iff in A. apply Qle_bool_iff in B. split.
    + intros [= <-]. split; [auto|apply round_nearest].
    + intros [_ N]. f_equal. apply (nearest_unique _ _ _ (round_nearest _) N).
  - split; [discriminate|]. intros [[A B] _]. apply Qle_bool_iff in A. apply Qle_bool_iff in B. rewrite A, B in E. discriminate.
Qed.
Lemma samples_err d v e : samples_of len count d v = Err e -> (e = ParameterError /\ exists q, v = VFloat q /\ ~ (0 <= q /\ q <= 1)%Q) \/ exists q, v = VQuantity q /\ count d q = Err e.
Proof.
  destruct v as [|z|q|q]; cbn [samples_of]; try discriminate; [|right; eauto]. destruct (Qle_bool 0 q && Qle_bool q 1) eqn:E; [discriminate|]. intros [= <-]. left. split; [reflexivity|]. exists q. split; [reflexivity|]. intros [A B]. apply Qle_bool_iff in A. apply Qle_bool_iff in B. rewrite A, B in E. discriminate.
Qed.
Lemma to_samples_one v ds : to_samples len count ds (repeat v (List.length ds)) = map_result (fun d => samples_of len count d v) ds.
Proof. induction ds as [|d t IH]; [reflexivity|]. cbn. destruct (samples_of len count d v); [|reflexivity]. cbn [bind]. rewrite IH. reflexivity. Qed.
Definition ask (s : smoothing) (e : string * Z) : result Z := match asked s (fst e) with Some v => samples_of len count (fst e) v | None => Err KeyError end.
Lemma sigma_shape dims axes s : NoDup dims -> List.length dims = List.length axes -> (forall m k, s = PerDim m -> In k (map fst m) -> In k dims) ->
  smooth_sigma len count dims axes s = (do ns <- map_result (ask s) (smoothed s (combine dims axes)); Ok (ns, map snd (smoothed s (combine dims axes)))).
Proof.
  intros ND L K. unfold smooth_sigma, broadcast. destruct s as [v|m].
  - cbn [bind]. rewrite to_samples_one. unfold smoothed, ask. cbn [asked]. clear K ND.
    assert (F : forall l : list (string * Z), filter (fun _ => true) l = l) by (induction l as [|x l IH]; [reflexivity|cbn; rewrite IH; reflexivity]). rewrite F.
    assert (E : map_result (fun d => samples_of len count d v) dims = map_result (fun e => samples_of len count (fst e) v) (combine dims axes) /\ map snd (combine dims axes) = axes).
    { revert axes L. induction dims as [|d t IH]; intros [|a u] L; cbn in L; try discriminate; [split; reflexivity|]. cbn [combine map_result fst snd map]. destruct (IH u ltac:(lia)) as [-> ->]. split; reflexivity. }
    destruct E as [-> ->]. reflexivity.
  - rewrite (proj2 (forallb_forall (fun k => mem k dims) (map fst m))) by (intros k I; apply mem_In', (K m k eq_refl I)). cbn [negb]. rewrite (proj2 (Nat.eqb_eq _ _) L). cbn [negb].
    set (sd := filter _ dims). set (da := combine dims axes).
    assert (V : map_result (fun d => match assoc d m with Some v => Ok v | None => Err KeyError end) sd = Ok (map (fun d => match assoc d m with Some v => v | None => VNone end) sd)).
    { assert (H : forall d, In d sd -> exists v, assoc d m = Some v) by (intros d I; apply filter_In in I as [_ I]; destruct (assoc d m); [eauto|discriminate]). clearbody sd. induction sd as [|d t IH]; [reflexivity|]. cbn. destruct (H d (or_introl eq_refl)) as [v ->]. cbn [bind]. rewrite IH by (intros x I; apply H; right; exact I). reflexivity. }
    rewrite V. cbn [bind].
    assert (G : forall ds xs, NoDup ds -> List.length ds = List.length xs -> filter (fun d => match assoc d m with Some _ => true | None => false end) ds = map fst (smoothed (PerDim m) (combine ds xs))).
    { clear. intros ds. induction ds as [|d t IH]; intros [|x xs] N E; cbn in E; try discriminate; [reflexivity|]. inversion N; subst. unfold smoothed in *. cbn [combine filter asked fst]. rewrite (IH xs) by (assumption || lia). cbn [asked]. destruct (assoc d m); reflexivity. }
    assert (SD : sd = map fst (smoothed (PerDim m) da)) by (apply G; assumption). clearbody sd.
    assert (NF : NoDup (map fst da)) by (unfold da; clear -ND L; revert axes L; induction dims as [|d t IH]; intros [|x xs] E; cbn in E; try discriminate; [constructor|]; inversion ND as [|? ? N1 N2]; subst; cbn; constructor; [intros I; apply N1; apply in_map_iff in I as ([p y] & Ep & Ip); cbn in Ep; subst; apply in_combine_l in Ip; exact Ip|apply IH; [assumption|lia]]).
    assert (H : forall e, In e (smoothed (PerDim m) da) -> assoc (fst e) da = Some (snd e) /\ exists v, assoc (fst e) m = Some v).
    { intros [d a] I. apply filter_In in I as [I J]. split; [apply in_assoc; [exact NF|exact I]|]. cbn [asked fst] in *. destruct (assoc d m); [eauto|discriminate]. }
    subst sd. set (l := smoothed (PerDim m) da) in *. clearbody l. 
    assert (AX : map_result (fun d => match assoc d da with Some a => Ok a | None => Err KeyError end) (map fst l) = Ok (map snd l)).
    { clear V. induction l as [|e t IH]; [reflexivity|]. cbn. rewrite (proj1 (H e (or_introl eq_refl))). cbn [bind]. rewrite IH by (intros x I; apply H; right; exact I). reflexivity. }
    rewrite AX. cbn [bind]. f_equal. clear V AX. induction l as [|e t IH]; [reflexivity|]. cbn [map to_samples map_result]. unfold ask at 1. cbn [asked]. destruct (proj2 (H e (or_introl eq_refl))) as [v Ev]. rewrite Ev. destruct (samples_of len count (fst e) v); [|reflexivity]. cbn [bind].
    rewrite IH by (intros x I; apply H; right; exact I). reflexivity.
Qed.
Lemma map_result_F2 {A B} (f : A -> result B) l ys : map_result f l = Ok ys <-> Forall2 (fun x y => f x = Ok y) l ys.
Proof.
  revert ys. induction l as [|x t IH]; intros ys; cbn; [split; [intros [= <-]; constructor|intros H; inversion H; reflexivity]|]. destruct (f x) as [y|] eqn:E; cbn [bind].
  - destruct (map_result f t) as [zs|] eqn:M; cbn [bind].
    + split; [intros [= <-]; constructor; [exact E|apply IH; reflexivity]|]. intros H. inversion H as [|? ? ? ? H1 H2]; subst. rewrite E in H1. injection H1 as ->. apply IH in H2. injection H2 as ->. reflexivity.
    + split; [discriminate|]. intros H. inversion H as [|? ? ? ? H1 H2]; subst. apply IH in H2. discriminate.
  - split; [discriminate|]. intros H. inversion H; congruence.
Qed.
Lemma map_result_E {A B} (f : A -> result B) l e : map_result f l = Err e -> exists x, In x l /\ f x = Err e.
Proof. induction l as [|x t IH]; cbn; [discriminate|]. destruct (f x) eqn:E; cbn [bind]; [|intros [= <-]; exists x; auto]. destruct (map_result f t); cbn [bind]; [discriminate|]. intros H. destruct (IH H) as (y & I & Y). eauto. Qed.
Lemma ask_ok s e n da : In e (smoothed s da) -> ask s e = Ok n <-> exists v, asked s (fst e) = Some v /\ width len count (fst e) v n.
Proof.
  intros I. unfold ask. destruct (asked s (fst e)) as [v|] eqn:E; [|split; [discriminate|intros (v & X & _); discriminate]]. rewrite samples_ok. split; [eauto|]. intros (w & [= <-] & W). exact W.
Qed.
Theorem sigma_ok dims axes s ns ax : NoDup dims -> List.length dims = List.length axes -> smooth_sigma len count dims axes s = Ok (ns, ax) <->
  (forall m k, s = PerDim m -> In k (map fst m) -> In k dims) /\ ax = map snd (smoothed s (combine dims axes)) /\
  Forall2 (fun e n => exists v, asked s (fst e) = Some v /\ width len count (fst e) v n) (smoothed s (combine dims axes)) ns.
Proof.
  intros ND L. assert (Known : smooth_sigma len count dims axes s = Ok (ns, ax) -> forall m k, s = PerDim m -> In k (map fst m) -> In k dims).
  { intros H m k -> I. unfold smooth_sigma, broadcast in H. destruct (forallb (fun k => mem k dims) (map fst m)) eqn:F; [|discriminate]. rewrite forallb_forall in F. apply mem_In', F, I. }
  split.
  - intros H. pose proof (Known H) as K. split; [exact K|]. rewrite (sigma_shape _ _ _ ND L K) in H. destruct (map_result (ask s) _) as [zs|] eqn:M; [|discriminate]. cbn [bind] in H. injection H as <- <-. split; [reflexivity|].
    apply map_result_F2 in M. set (l := smoothed s (combine dims axes)) in *. assert (S0 : forall e, In e l -> In e (smoothed s (combine dims axes))) by auto. clear Known. clearbody l. induction M as [|e n t u E M IH]; [constructor|]. constructor; [apply (ask_ok s e n _ (S0 e (or_introl eq_refl))), E|apply IH; intros x I; apply S0; right; exact I].
  - intros (K & -> & F). rewrite (sigma_shape _ _ _ ND L K). assert (M : map_result (ask s) (smoothed s (combine dims axes)) = Ok ns); [|rewrite M; reflexivity].
    apply map_result_F2. set (l := smoothed s (combine dims axes)) in *. assert (S0 : forall e, In e l -> In e (smoothed s (combine dims axes))) by auto. clear Known. clearbody l. induction F as [|e n t u E F IH]; [constructor|]. constructor; [apply (ask_ok s e n _ (S0 e (or_introl eq_refl))), E|apply IH; intros x I; apply S0; right; exact I].
Qed.
Theorem sigma_err dims axes s e : NoDup dims -> List.length dims = List.length axes -> smooth_sigma len count dims axes s = Err e ->
  (e = ParameterError /\ exists m k, s = PerDim m /\ In k (map fst m) /\ ~ In k dims) \/
  (e = ParameterError /\ exists d q, In d dims /\ asked s d = Some (VFloat q) /\ ~ (0 <= q /\ q <= 1)%Q) \/
  exists d q, In d dims /\ asked s d = Some (VQuantity q) /\ count d q = Err e.
Proof.
  intros ND L H. assert (Dec : (forall m k, s = PerDim m -> In k (map fst m) -> In k dims) \/ exists m k, s = PerDim m /\ In k (map fst m) /\ ~ In k dims).
  { destruct s as [v|m]; [left; discriminate|]. destruct (forallb (fun k => mem k dims) (map fst m)) eqn:F.
    - left. intros m' k [= <-] I. rewrite forallb_forall in F. apply mem_In', F, I.
    - right. exists m. clear H. induction (map fst m) as [|k t IH]; [discriminate|]. cbn in F. destruct (mem k dims) eqn:M; [destruct (IH F) as (x & E & I & N); exists x; split; [exact E|]; split; [right; exact I|exact N]|]. apply mem_false in M. exists k. split; [reflexivity|]. split; [left; reflexivity|exact M]. }
  destruct Dec as [K|(m & k & -> & I & N)].
  - right. rewrite (sigma_shape _ _ _ ND L K) in H. destruct (map_result (ask s) _) as [zs|e0] eqn:M; [discriminate|]. cbn [bind] in H. injection H as ->. apply map_result_E in M as ([d a] & I & E). apply filter_In in I as [I J]. apply in_combine_l in I. unfold ask in E. cbn [fst] in *. destruct (asked s d) as [v|] eqn:A; [|discriminate].
    apply samples_err in E as [(-> & q & -> & Q0)|(q & -> & Q0)]; [left; split; [reflexivity|]; eauto|right; eauto].
  - left. split; [|eauto]. unfold smooth_sigma, broadcast in H. destruct (forallb (fun k => mem k dims) (map fst m)) eqn:F; [rewrite forallb_forall in F; exfalso; apply N, mem_In', F, I|]. cbn in H. congruence.
Qed.
End S.
Theorem fraction_bound len count d q n : (0 <= len d)%Z -> width len count d (VFloat q) n -> (0 <= n <= len d)%Z.
Proof.
  intros P [[A B] [N _]]. apply Qabs_Qle_condition in N. assert (P' : (0 <= inject_Z (len d))%Q) by (change 0%Q with (inject_Z 0); rewrite <- Zle_Qle; exact P). assert (X : (0 <= inject_Z (len d) * q)%Q) by (apply Qmult_le_0_compat; assumption). assert (Y : (inject_Z (len d) * q <= inject_Z (len d))%Q) by nra.
  assert (L1 : (inject_Z (-1) < inject_Z n)%Q) by (change (inject_Z (-1)) with (-1 # 1)%Q; lra). assert (L2 : (inject_Z n < inject_Z (len d + 1))%Q) by (rewrite inject_Z_plus; change (inject_Z 1) with 1%Q; lra). rewrite <- Zlt_Qlt in L1, L2. lia.
Qed.
