(** Proofs for Febus files (C108). *)
From Verif Require Import Base BaseFacts FrameModel CmProofs AttrsModel AttrsProofs PickModel PickSpec PickProofs FebusModel FebusSpec.
From Coq Require Import Strings.String Strings.Ascii Permutation Lia.
Local Open Scope list_scope.

Lemma major_hd v : major v (hd EmptyString (str_split "."%char v)).
Proof.
  destruct (str_split_cons "."%char v) as (h & t & E). rewrite E. cbn. destruct (split_inv _ _ _ E) as [D M]. split; [exact D|]. destruct t; [left; exact M|]. destruct M as (r & -> & _). right. eauto.
Qed.
Lemma major_unique v m n : major v m -> major v n -> m = n.
Proof.
  assert (G : forall x, major v x -> hd EmptyString (str_split "."%char v) = x).
  { intros x [D [->|(r & ->)]]; [rewrite str_split_single by exact D; reflexivity|]. rewrite split_join2 by exact D. reflexivity. }
  intros A B. rewrite <- (G m A). apply G, B.
Qed.
Lemma major_self m : (forall a b, m <> (a ++ String "."%char b)%string) -> hd EmptyString (str_split "."%char m) = m.
Proof. intros D. rewrite str_split_single by exact D. reflexivity. Qed.
Lemma prefix_spec s : String.prefix "Source" s = true <-> exists r, s = ("Source" ++ r)%string.
Proof.
  assert (G : forall p s, String.prefix p s = true <-> exists r, s = (p ++ r)%string).
  { clear. induction p as [|c p IH]; intros s; [split; [intros _; exists s; reflexivity|destruct s; reflexivity]|]. destruct s as [|d s]; cbn; [split; [discriminate|intros [r E]; discriminate]|]. destruct (ascii_dec c d) as [->|N]; [rewrite IH; split; intros [r E]; exists r; congruence|]. split; [discriminate|intros [r E]; congruence]. }
  apply G.
Qed.
Definition good (e : string * source) : bool := String.prefix "Source" (fst e) && forallb (fun x => mem x (s_attrs (snd e))) expected.
Definition run (v : string) (l : list source) : string := fold_left next_version l v.
Lemma inner ss b v : fold_left (fun (a : bool * string) (e : string * source) => (fst a && forallb (fun x => mem x (s_attrs (snd e))) expected, next_version (snd a) (snd e))) ss (b, v) =
  (b && forallb (fun e => forallb (fun x => mem x (s_attrs (snd e))) expected) ss, run v (map snd ss)).
Proof. revert b v. induction ss as [|e t IH]; intros b v; [cbn [fold_left forallb map run]; rewrite Bool.andb_true_r; reflexivity|]. cbn [fold_left forallb map fst snd]. rewrite IH. unfold run. cbn [fold_left]. rewrite Bool.andb_assoc. reflexivity. Qed.
Lemma version_shape f : febus_version f = match f with [] => EmptyString | _ => if forallb (fun i => forallb good (snd i)) f then run "1" (all_sources f) else EmptyString end.
Proof.
  unfold febus_version. cbn zeta. assert (G : forall b v, fold_left (fun (acc : bool * string) (inst : string * list (string * source)) =>
    fold_left (fun (a : bool * string) (e : string * source) => (fst a && forallb (fun x => mem x (s_attrs (snd e))) expected, next_version (snd a) (snd e)))
              (snd inst) (fst acc && forallb (fun e => String.prefix "Source" (fst e)) (snd inst), snd acc)) f (b, v) = (b && forallb (fun i => forallb good (snd i)) f, run v (all_sources f))).
  { induction f as [|[i ss] t IH]; intros b v; [cbn [fold_left forallb all_sources flat_map run]; rewrite Bool.andb_true_r; reflexivity|]. cbn [fold_left forallb fst snd]. rewrite inner, IH. unfold run, all_sources. cbn [flat_map snd]. rewrite fold_left_app. f_equal.
    rewrite <- !Bool.andb_assoc. f_equal. rewrite Bool.andb_assoc. f_equal. clear. induction ss as [|e t IH]; [reflexivity|]. cbn [forallb]. rewrite <- IH. unfold good at 1. destruct (String.prefix "Source" (fst e)), (forallb (fun x => mem x (s_attrs (snd e))) expected), (forallb (fun e0 => String.prefix "Source" (fst e0)) t); reflexivity. }
  rewrite G. cbn [fst snd andb]. reflexivity.
Qed.
Lemma good_spec f : f <> [] -> forallb (fun i => forallb good (snd i)) f = true <-> fingerprint f.
Proof.
  intros NE. unfold fingerprint. rewrite forallb_forall. split.
  - intros H. split; [exact NE|]. intros i ss s x I J. specialize (H _ I). cbn [snd] in H. rewrite forallb_forall in H. specialize (H _ J). unfold good in H. apply andb_prop in H as [H1 H2]. cbn [fst snd] in *. split; [apply prefix_spec, H1|]. rewrite forallb_forall in H2. intros a K. apply mem_In', H2. cbn. intuition congruence.
  - intros [_ H] [i ss] I. apply forallb_forall. intros [s x] J. destruct (H i ss s x I J) as [P Q]. unfold good. cbn [fst snd]. apply andb_true_intro. split; [apply prefix_spec, P|]. apply forallb_forall. intros a K. apply mem_In', Q. cbn in K. intuition congruence.
Qed.
Theorem not_febus f : ~ fingerprint f -> febus_version f = EmptyString.
Proof. intros N. rewrite version_shape. destruct f as [|i t]; [reflexivity|]. destruct (forallb _ _) eqn:B; [|reflexivity]. exfalso. apply N, good_spec; [discriminate|exact B]. Qed.
Lemma run_none v l : (forall a b, v <> (a ++ String "."%char b)%string) -> (forall s, In s l -> s_version s = None) -> run v l = v.
Proof. intros D H. unfold run. induction l as [|s t IH]; [reflexivity|]. cbn [fold_left]. unfold next_version at 2. rewrite (H s (or_introl eq_refl)), (major_self v D). apply IH. intros x I. apply H. right. exact I. Qed.
Theorem version_default f : fingerprint f -> (forall s, In s (all_sources f) -> s_version s = None) -> febus_version f = "1"%string.
Proof.
  intros F H. rewrite version_shape. destruct f as [|i t] eqn:E; [destruct F as [F _]; contradiction|]. rewrite <- E in *. rewrite (proj2 (good_spec f ltac:(subst; discriminate)) F). apply run_none; [|exact H]. intros [|a [|b c]] d X; try discriminate.
Qed.
Theorem version_last f l s r v m : fingerprint f -> all_sources f = l ++ s :: r -> s_version s = Some v -> (forall x, In x r -> s_version x = None) -> major v m -> febus_version f = m.
Proof.
  intros F E V H M. rewrite version_shape. destruct f as [|i t] eqn:Ef; [destruct F as [F _]; contradiction|]. rewrite <- Ef in *. rewrite (proj2 (good_spec f ltac:(subst; discriminate)) F). rewrite E. unfold run. rewrite fold_left_app. cbn [fold_left]. unfold next_version at 2. rewrite V. rewrite (major_unique _ _ _ (major_hd v) M). apply run_none; [exact (proj1 M)|exact H].
Qed.
Lemma last_given (l : list source) : (forall s, In s l -> s_version s = None) \/ exists a s b v, l = a ++ s :: b /\ s_version s = Some v /\ forall x, In x b -> s_version x = None.
Proof.
  induction l as [|x l IH]; [left; intros s []|]. destruct IH as [IH|(a & s & b & v & -> & V & B)]; [|right; exists (x :: a), s, b, v; auto]. destruct (s_version x) as [v|] eqn:E; [right; exists [], x, l, v; auto|left; intros s [<-|I]; auto].
Qed.
Lemma reordered_sources f g : reordered f g -> Permutation (all_sources f) (all_sources g).
Proof. intros R. induction R as [|a b f g [_ P] R IH]; [constructor|]. unfold all_sources in *. cbn. apply Permutation_app; [apply Permutation_map, P|exact IH]. Qed.
Lemma reordered_print f g : reordered f g -> fingerprint f -> fingerprint g.
Proof.
  intros R [NE H]. split; [intros ->; inversion R; subst; contradiction|]. intros i ss s x I J. clear NE. induction R as [|[a1 a2] [b1 b2] f g [E P] R IH]; [contradiction|]. cbn in E, P. subst b1. destruct I as [I|I]; [injection I as -> ->; apply (H i a2); [left; reflexivity|]; apply Permutation_sym in P; exact (Permutation_in _ P J)|]. apply IH; [|exact I]. intros i' ss' s' x' I' J'. apply (H i' ss'); [right; exact I'|exact J'].
Qed.
Theorem version_order f g m : reordered f g -> (forall s v, In s (all_sources f) -> s_version s = Some v -> major v m) -> febus_version f = febus_version g.
Proof.
  intros R H. assert (R' : reordered g f) by (clear -R; induction R as [|a b f g [E P] R IH]; constructor; [split; [congruence|apply Permutation_sym, P]|exact IH]).
  assert (PS := reordered_sources _ _ R). destruct (forallb (fun i => forallb good (snd i)) f) eqn:B.
  - destruct f as [|i t] eqn:Ef; [inversion R; reflexivity|]. rewrite <- Ef in *. assert (F : fingerprint f) by (apply good_spec; [subst; discriminate|exact B]). pose proof (reordered_print _ _ R F) as F'.
    destruct (last_given (all_sources f)) as [N|(a & s & b & v & E & V & L)].
    + rewrite (version_default f F N), (version_default g F'); [reflexivity|]. intros x I. apply N. apply Permutation_sym in PS. exact (Permutation_in _ PS I).
    + assert (I : In s (all_sources f)) by (rewrite E; apply in_elt). rewrite (version_last f a s b v m F E V L (H s v I V)). destruct (last_given (all_sources g)) as [N|(a' & s' & b' & v' & E' & V' & L')].
      * exfalso. rewrite (N s) in V; [discriminate|]. exact (Permutation_in _ PS I).
      * symmetry. apply (version_last g a' s' b' v' m F' E' V' L'). apply (H s' v'); [|exact V']. apply Permutation_sym in PS. apply (Permutation_in _ PS). rewrite E'. apply in_elt.
  - assert (N : ~ fingerprint f) by (intros F; destruct f as [|i t]; [destruct F as [F _]; contradiction|]; apply good_spec in F; [congruence|discriminate]). rewrite (not_febus f N). symmetry. apply not_febus. intros F. apply N. exact (reordered_print _ _ R' F).
Qed.

Lemma zones_spec i s zs out : zones i s zs = Ok out -> forall e, In e out <-> exists z d, e = (i, s, z, d) /\ z <> "time"%string /\ In (z, [d]) zs.
Proof.
  revert out. induction zs as [|[z ds] t IH]; cbn [zones]; intros out E e; [injection E as <-; split; [contradiction|intros (? & ? & _ & _ & [])]|]. destruct (String.eqb_spec z "time") as [->|N].
  - rewrite (IH out E). split; intros (z & d & -> & M & I); exists z, d; (split; [reflexivity|]; split; [exact M|]); [right; exact I|destruct I as [I|I]; [injection I as <- _; contradiction|exact I]].
  - destruct ds as [|d [|? ?]]; try discriminate. destruct (zones i s t) as [r|]; [|discriminate]. cbn [bind] in E. injection E as <-. cbn [In]. rewrite (IH r eq_refl). split.
    + intros [<-|(z' & d' & -> & M & I)]; [exists z, d; auto|exists z', d'; auto].
    + intros (z' & d' & -> & M & [I|I]); [injection I as -> ->; auto|right; exists z', d'; auto].
Qed.
Lemma zones_ok i s zs : (exists out, zones i s zs = Ok out) <-> forall z ds, In (z, ds) zs -> z <> "time"%string -> List.length ds = 1%nat.
Proof.
  induction zs as [|[z ds] t IH]; cbn [zones]; [split; [intros _ z ds []|intros _; eexists; reflexivity]|]. destruct (String.eqb_spec z "time") as [->|N].
  - rewrite IH. split; intros H z' ds' I M; [destruct I as [I|I]; [injection I as <- _; contradiction|exact (H _ _ I M)]|apply (H z' ds'); [right; exact I|exact M]].
  - split.
    + intros [out E] z' ds' [I|I] M; [injection I as <- <-; destruct ds as [|d [|? ?]]; try discriminate; reflexivity|]. destruct ds as [|d [|? ?]]; try discriminate. destruct (zones i s t) as [r|]; [|discriminate]. apply (proj1 IH (ex_intro _ r eq_refl) _ _ I M).
    + intros H. pose proof (H z ds (or_introl eq_refl) N) as L. destruct ds as [|d [|? ?]]; try discriminate. destruct (proj2 IH) as [r ->]; [intros z' ds' I M; apply (H z' ds'); [right; exact I|exact M]|]. cbn [bind]. eauto.
Qed.
Lemma zones_err i s zs e : zones i s zs = Err e -> e = AssertionError.
Proof. induction zs as [|[z ds] t IH]; cbn [zones]; [discriminate|]. destruct (String.eqb z "time"); [exact IH|]. destruct ds as [|d [|? ?]]; try congruence. destruct (zones i s t); cbn [bind]; [discriminate|]. intros [= <-]. apply IH. reflexivity. Qed.
Lemma sources_spec i ss out : sources i ss = Ok out -> forall e, In e out <-> exists s x z d, e = (i, s, z, d) /\ z <> "time"%string /\ In (s, x) ss /\ In (z, [d]) (s_zones x).
Proof.
  revert out. induction ss as [|[s x] t IH]; cbn [sources]; intros out E e; [injection E as <-; split; [contradiction|intros (? & ? & ? & ? & _ & _ & [] & _)]|]. destruct (zones i s (s_zones x)) as [a|] eqn:Z0; [|discriminate]. cbn [bind] in E. destruct (sources i t) as [b|]; [|discriminate]. cbn [bind] in E. injection E as <-.
  rewrite in_app_iff, (zones_spec _ _ _ _ Z0), (IH b eq_refl). split.
  - intros [(z & d & -> & M & I)|(s' & x' & z & d & -> & M & J & I)]; [exists s, x, z, d|exists s', x', z, d]; cbn; auto.
  - intros (s' & x' & z & d & -> & M & [J|J] & I); [injection J as -> ->; left; exists z, d; auto|right; exists s', x', z, d; auto].
Qed.
Theorem slices_spec f out : slices f = Ok out -> forall i s z d, In (i, s, z, d) out <-> zone_of f i s z [d].
Proof.
  assert (G : forall f out, slices f = Ok out -> forall e, In e out <-> exists i s z d, e = (i, s, z, d) /\ zone_of f i s z [d]).
  { clear. intros f. induction f as [|[i ss] t IH]; cbn [slices]; intros out E e; [injection E as <-; split; [contradiction|intros (? & ? & ? & ? & _ & _ & ? & ? & [] & _)]|]. destruct (sources i ss) as [a|] eqn:S0; [|discriminate]. cbn [bind] in E. destruct (slices t) as [b|]; [|discriminate]. cbn [bind] in E. injection E as <-.
    rewrite in_app_iff, (sources_spec _ _ _ S0), (IH b eq_refl). split.
    - intros [(s & x & z & d & -> & M & J & I)|(i' & s & z & d & -> & M & ss' & x & K & J & I)]; [exists i, s, z, d; split; [reflexivity|]; split; [exact M|]; exists ss, x; cbn; auto|exists i', s, z, d; split; [reflexivity|]; split; [exact M|]; exists ss', x; cbn; auto].
    - intros (i' & s & z & d & -> & M & ss' & x & [K|K] & J & I); [injection K as -> ->; left; exists s, x, z, d; auto|right; exists i', s, z, d; split; [reflexivity|]; split; [exact M|]; exists ss', x; auto]. }
  intros E i s z d. rewrite (G f out E). split; [intros (? & ? & ? & ? & [= <- <- <- <-] & H); exact H|intros H; exists i, s, z, d; auto].
Qed.
Theorem slices_ok f : (exists out, slices f = Ok out) <-> forall i s z ds, zone_of f i s z ds -> List.length ds = 1%nat.
Proof.
  assert (Sx : forall i ss, (exists out, sources i ss = Ok out) <-> forall s x z ds, In (s, x) ss -> In (z, ds) (s_zones x) -> z <> "time"%string -> List.length ds = 1%nat).
  { intros i ss. induction ss as [|[s x] t IH]; cbn [sources]; [split; [intros _ s x z ds []|intros _; eexists; reflexivity]|]. split.
    - intros [out E] s' x' z ds I J M. destruct (zones i s (s_zones x)) as [a|] eqn:Z0; [|discriminate]. cbn [bind] in E. destruct (sources i t) as [b|]; [|discriminate]. destruct I as [I|I]; [injection I as <- <-; apply (proj1 (zones_ok i s (s_zones x)) (ex_intro _ a Z0) z ds J M)|]. apply (proj1 IH (ex_intro _ b eq_refl) s' x' z ds I J M).
    - intros H. destruct (proj2 (zones_ok i s (s_zones x))) as [a ->]; [intros z ds J M; apply (H s x z ds (or_introl eq_refl) J M)|]. cbn [bind]. destruct (proj2 IH) as [b ->]; [intros s' x' z ds I J M; apply (H s' x' z ds (or_intror I) J M)|]. cbn [bind]. eauto. }
  induction f as [|[i ss] t IH]; cbn [slices]; [split; [intros _ i s z ds (_ & ss & x & [] & _)|intros _; eexists; reflexivity]|]. split.
  - intros [out E] i' s z ds (M & ss' & x & I & J & K). destruct (sources i ss) as [a|] eqn:S0; [|discriminate]. cbn [bind] in E. destruct (slices t) as [b|]; [|discriminate]. destruct I as [I|I]; [injection I as <- <-; apply (proj1 (Sx i ss) (ex_intro _ a S0) s x z ds J K M)|]. apply (proj1 IH (ex_intro _ b eq_refl) i' s z ds). split; [exact M|]. exists ss', x. auto.
  - intros H. destruct (proj2 (Sx i ss)) as [a ->]; [intros s x z ds J K M; apply (H i s z ds); split; [exact M|]; exists ss, x; cbn; auto|]. cbn [bind]. destruct (proj2 IH) as [b ->]; [intros i' s z ds (M & ss' & x & I & J & K); apply (H i' s z ds); split; [exact M|]; exists ss', x; cbn; auto|]. cbn [bind]. eauto.
Qed.
Theorem slices_err f e : slices f = Err e -> e = AssertionError.
Proof.
  assert (Se : forall i ss, sources i ss = Err e -> e = AssertionError).
  { intros i ss. induction ss as [|[s x] t IH]; cbn [sources]; [discriminate|]. destruct (zones i s (s_zones x)) eqn:Z0; cbn [bind]; [|intros [= <-]; exact (zones_err _ _ _ _ Z0)]. destruct (sources i t); cbn [bind]; [discriminate|]. intros [= <-]. apply IH. reflexivity. }
  induction f as [|[i ss] t IH]; cbn [slices]; [discriminate|]. destruct (sources i ss) eqn:S0; cbn [bind]; [|intros [= <-]; exact (Se _ _ S0)]. destruct (slices t); cbn [bind]; [discriminate|]. intros [= <-]. apply IH. reflexivity.
Qed.
Theorem slices_order f out : slices f = Ok out -> map (fun e : slice => let '(i, s, z, d) := e in (i, s, z, [d])) out = listed f.
Proof.
  assert (Z1 : forall i s zs out, zones i s zs = Ok out -> map (fun e : slice => let '(i, s, z, d) := e in (i, s, z, [d])) out = flat_map (fun z => if string_dec (fst z) "time" then [] else [(i, s, fst z, snd z)]) zs).
  { intros i s zs. induction zs as [|[z ds] t IH]; cbn [zones flat_map fst snd]; intros o E; [injection E as <-; reflexivity|]. destruct (String.eqb_spec z "time") as [->|N]; [destruct (string_dec "time" "time"); [apply IH, E|contradiction]|]. destruct (string_dec z "time") as [X|_]; [contradiction|]. destruct ds as [|d [|? ?]]; try discriminate. destruct (zones i s t) as [r|]; [|discriminate]. cbn [bind] in E. injection E as <-. cbn. f_equal. apply IH. reflexivity. }
  assert (S1 : forall i ss out, sources i ss = Ok out -> map (fun e : slice => let '(i, s, z, d) := e in (i, s, z, [d])) out = flat_map (fun s => flat_map (fun z => if string_dec (fst z) "time" then [] else [(i, fst s, fst z, snd z)]) (s_zones (snd s))) ss).
  { intros i ss. induction ss as [|[s x] t IH]; cbn [sources flat_map fst snd]; intros o E; [injection E as <-; reflexivity|]. destruct (zones i s (s_zones x)) as [a|] eqn:Z0; [|discriminate]. cbn [bind] in E. destruct (sources i t) as [b|]; [|discriminate]. cbn [bind] in E. injection E as <-. rewrite map_app, (Z1 _ _ _ _ Z0), (IH b eq_refl). reflexivity. }
  revert out. induction f as [|[i ss] t IH]; cbn [slices]; intros o E; [injection E as <-; reflexivity|]. destruct (sources i ss) as [a|] eqn:S0; [|discriminate]. cbn [bind] in E. destruct (slices t) as [b|]; [|discriminate]. cbn [bind] in E. injection E as <-. unfold listed in *. cbn [flat_map fst snd]. rewrite map_app, (S1 _ _ _ S0), (IH b eq_refl). reflexivity.
Qed.
