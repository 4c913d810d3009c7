(** Proofs for coordinates of short-time Fourier transforms (C106). *)
From Verif Require Import Base BaseFacts FrameModel CmProofs WhitenModel WhitenSpec WhitenProofs StftModel StftSpec.
From Coq Require Import Strings.String Lia.
Local Open Scope list_scope.

Lemma pos_split d l n : pos d l = Some n -> exists a b, l = a ++ d :: b /\ ~ In d a /\ List.length a = n.
Proof.
  revert n. induction l as [|x t IH]; cbn; intros n E; [discriminate|]. destruct (String.eqb_spec x d) as [->|N].
  - injection E as <-. exists [], t. split; [reflexivity|]. split; [intros []|reflexivity].
  - destruct (pos d t) as [k|]; [|discriminate]. cbn in E. injection E as <-. destruct (IH k eq_refl) as (a & b & -> & I & L). exists (x :: a), b. split; [reflexivity|]. split; [intros [X|X]; [exact (N X)|exact (I X)]|cbn; rewrite L; reflexivity].
Qed.
Lemma pos_at a d b : ~ In d a -> pos d (a ++ d :: b) = Some (List.length a).
Proof. induction a as [|x t IH]; intros N; cbn; [rewrite String.eqb_refl; reflexivity|]. destruct (String.eqb_spec x d) as [->|_]; [exfalso; apply N; left; reflexivity|]. rewrite IH by (intros I; apply N; right; exact I). reflexivity. Qed.
Lemma set_at {X} (a : list X) x b v : set_nth (List.length a) v (a ++ x :: b) = a ++ v :: b.
Proof. induction a as [|y t IH]; cbn; [reflexivity|]. rewrite IH. reflexivity. Qed.
Lemma pop_at {X} (a : list X) x b : pop_nth (List.length a) (a ++ x :: b) = a ++ b.
Proof. induction a as [|y t IH]; cbn; [reflexivity|]. rewrite IH. reflexivity. Qed.
Lemma two_places (dims : list string) f t : f <> t -> In f dims -> In t dims -> NoDup dims ->
  (exists a b c, dims = a ++ f :: b ++ t :: c) \/ (exists a b c, dims = a ++ t :: b ++ f :: c).
Proof.
  intros N I J ND. apply in_split in I as (a & r & ->). apply in_app_or in J as [J|[J|J]]; [|contradiction|].
  - apply in_split in J as (x & y & ->). right. exists x, y, r. rewrite <- app_assoc. reflexivity.
  - apply in_split in J as (x & y & ->). left. exists a, x, y. reflexivity.
Qed.
Lemma nodup_notin (a : list string) x b : NoDup (a ++ x :: b) -> ~ In x a /\ ~ In x b.
Proof. intros H. apply NoDup_remove_2 in H. split; intros I; apply H, in_or_app; auto. Qed.
Lemma new_dims dims f t fa ta : f <> t -> NoDup dims -> pos f dims = Some fa -> pos t dims = Some ta ->
  inverse_dims dims f t (pop_nth ta (set_nth fa t dims)) /\ (pos t (pop_nth ta (set_nth fa t dims)) = Some fa <-> (fa < ta)%nat).
Proof.
  intros N ND F T. destruct (pos_split _ _ _ F) as (x & y & E & _ & _). destruct (pos_split _ _ _ T) as (x' & y' & E' & _ & _).
  destruct (two_places dims f t N) as [(a & b & c & ->)|(a & b & c & ->)]; try (rewrite E; apply in_elt); try (rewrite E'; apply in_elt); try exact ND; clear E E' x y x' y'.
  - pose proof (nodup_notin _ _ _ ND) as [Fa Fb]. assert (ND' : NoDup ((a ++ f :: b) ++ t :: c)) by (rewrite <- app_assoc; exact ND). pose proof (nodup_notin _ _ _ ND') as [Ta Tc].
    rewrite pos_at in F by exact Fa. injection F as <-. assert (E : a ++ f :: b ++ t :: c = (a ++ f :: b) ++ t :: c) by (rewrite <- app_assoc; reflexivity). rewrite E, pos_at in T by exact Ta. injection T as <-.
    rewrite set_at. assert (E2 : pop_nth (List.length (a ++ f :: b)) (a ++ t :: b ++ t :: c) = a ++ t :: b ++ c).
    { replace (List.length (a ++ f :: b)) with (List.length (a ++ t :: b)) by (rewrite !app_length; reflexivity). replace (a ++ t :: b ++ t :: c) with ((a ++ t :: b) ++ t :: c) by (rewrite <- app_assoc; reflexivity). rewrite pop_at, <- app_assoc. reflexivity. }
    rewrite E2. split; [left; exists a, b, c; auto|]. rewrite pos_at by (intros I; apply Ta, in_or_app; left; exact I). rewrite app_length. cbn. split; [lia|reflexivity].
  - pose proof (nodup_notin _ _ _ ND) as [Ta Tb]. assert (ND' : NoDup ((a ++ t :: b) ++ f :: c)) by (rewrite <- app_assoc; exact ND). pose proof (nodup_notin _ _ _ ND') as [Fa Fc].
    rewrite pos_at in T by exact Ta. injection T as <-. assert (E : a ++ t :: b ++ f :: c = (a ++ t :: b) ++ f :: c) by (rewrite <- app_assoc; reflexivity). rewrite E, pos_at in F by exact Fa. injection F as <-.
    assert (E2 : pop_nth (List.length a) (set_nth (List.length (a ++ t :: b)) t (a ++ t :: b ++ f :: c)) = a ++ b ++ t :: c) by (rewrite E, set_at, <- app_assoc; cbn [app]; apply pop_at).
    rewrite E2. split; [right; exists a, b, c; auto|]. replace (a ++ b ++ t :: c) with ((a ++ b) ++ t :: c) by (rewrite <- app_assoc; reflexivity).
    rewrite pos_at by (intros I; apply in_app_or in I as [I|I]; [exact (Ta I)|apply Tb, in_or_app; left; exact I]). rewrite !app_length. cbn. split; [intros [= X]; lia|lia].
Qed.
Lemma pos_in d l : In d l -> exists n, pos d l = Some n.
Proof. induction l as [|x t IH]; [contradiction|]. cbn. destruct (String.eqb_spec x d) as [->|N]; [eauto|]. intros [X|I]; [contradiction|]. destruct (IH I) as [n ->]. cbn. eauto. Qed.

Section C.
Context {A : Type}.
Implicit Types (cs : coords A).
Lemma assoc_remove {X} n k (l : list (string * X)) : assoc n (remove k l) = if String.eqb n k then None else assoc n l.
Proof.
  unfold remove. induction l as [|[x v] t IH]; cbn; [destruct (String.eqb n k); reflexivity|]. destruct (String.eqb_spec x k) as [->|N]; cbn.
  - rewrite IH. destruct (String.eqb n k); reflexivity.
  - rewrite IH. destruct (String.eqb_spec n x) as [->|M]; [|reflexivity]. destruct (String.eqb_spec x k); [contradiction|reflexivity].
Qed.
Lemma assoc_map_names n (l : coords A) : assoc n (map (fun e => (fst e, ([fst e], snd (snd e)))) l) = option_map (fun v => ([n], snd v)) (assoc n l).
Proof. induction l as [|[x v] t IH]; cbn; [reflexivity|]. destruct (String.eqb_spec n x) as [->|]; [reflexivity|exact IH]. Qed.
Lemma assoc_filter n (P : list string * A -> bool) cs : NoDup (map fst cs) -> assoc n (filter (fun e => P (snd e)) cs) = match assoc n cs with Some v => if P v then Some v else None | None => None end.
Proof.
  induction cs as [|[x v] t IH]; intros ND; cbn; [reflexivity|]. cbn in ND. inversion ND as [|? ? N1 N2]; subst. destruct (P v) eqn:E; cbn; destruct (String.eqb_spec n x) as [->|M]; rewrite ?E; try reflexivity; try (apply IH; exact N2).
  rewrite (IH N2). destruct (assoc x t) as [w|] eqn:F; [|reflexivity]. exfalso. apply N1. apply assoc_In. eauto.
Qed.
Theorem stft_result dims cs dim time freq window nd out : stft_coords dims cs dim time freq window = Ok (nd, out) ->
  exists a b f, dims = a ++ dim :: b /\ transformed dim f /\ nd = a ++ f :: b ++ [dim].
Proof.
  unfold stft_coords. destruct (pos dim dims) as [ax|] eqn:P; [|discriminate]. destruct (assoc dim cs) as [[ds old]|]; [|discriminate]. intros [= <- _]. destruct (pos_split _ _ _ P) as (a & b & -> & N & <-). exists a, b, (forward_rename dim). split; [reflexivity|]. split; [apply forward_spec; reflexivity|]. rewrite set_at, <- app_assoc. reflexivity.
Qed.
Theorem istft_dims dims cs f t nd out : f <> t -> NoDup dims -> istft_coords dims cs f t = Ok (nd, out) -> inverse_dims dims f t nd.
Proof.
  intros N ND. unfold istft_coords. destruct (pos f dims) as [fa|] eqn:F; [|discriminate]. destruct (pos t dims) as [ta|] eqn:T; [|discriminate]. destruct (assoc "_stft_window" cs); [|discriminate]. destruct (assoc "_stft_old_coord" cs) as [[? old]|]; [|discriminate]. destruct (assoc f cs); [|discriminate].
  destruct (forallb _ _); [|discriminate]. intros [= <- _]. apply (new_dims dims f t fa ta N ND F T).
Qed.
Theorem istft_trim dims cs f t nd out fa ta : f <> t -> NoDup dims -> istft_coords dims cs f t = Ok (nd, out) -> trimmed_axis dims f = Some fa -> pos t dims = Some ta -> at_axis nd fa t <-> (fa < ta)%nat.
Proof.
  intros N ND E F T. unfold trimmed_axis in F. destruct (new_dims dims f t fa ta N ND F T) as [ID P]. assert (X : nd = pop_nth ta (set_nth fa t dims)).
  { unfold istft_coords in E. rewrite F, T in E. destruct (assoc "_stft_window" cs); [|discriminate]. destruct (assoc "_stft_old_coord" cs) as [[? old]|]; [|discriminate]. destruct (assoc f cs); [|discriminate]. destruct (forallb _ _); [|discriminate]. injection E as <- _. reflexivity. }
  rewrite <- X in *. rewrite <- P. unfold at_axis. assert (NDn : NoDup nd).
  { destruct ID as [(a & b & c & Ed & ->)|(a & b & c & Ed & ->)]; subst dims.
    - apply (NoDup_remove_1 a (b ++ t :: c) f) in ND. rewrite app_assoc in ND. apply NoDup_remove in ND as [ND NI]. rewrite <- app_assoc in ND. apply (NoDup_Add (a := t) (l := a ++ b ++ c)); [apply Add_app|]. split; [exact ND|]. rewrite <- app_assoc in NI. exact NI.
    - apply NoDup_remove in ND as [ND NI]. rewrite app_assoc in ND, NI. apply NoDup_remove_1 in ND as ND2. rewrite (app_assoc a b (t :: c)). apply (NoDup_Add (a := t) (l := (a ++ b) ++ c)); [apply Add_app|]. split; [exact ND2|]. intros I. apply NI. apply in_app_or in I as [I|I]; apply in_or_app; [left; exact I|right; right; exact I]. }
  split.
  - intros H. apply nth_error_split in H as (a & b & -> & <-). apply pos_at. apply (nodup_notin _ _ _ NDn).
  - intros H. apply pos_split in H as (a & b & -> & _ & <-). rewrite nth_error_app2 by lia. rewrite Nat.sub_diag. reflexivity.
Qed.
Lemma stft_lookup dims cs dim time freq window nd out : NoDup (map fst cs) -> stft_coords dims cs dim time freq window = Ok (nd, out) -> exists ds old, assoc dim cs = Some (ds, old) /\ forall n, assoc n out =
  if String.eqb n "_stft_old_coord" then Some ([], old) else if String.eqb n "_stft_window" then Some ([], window) else if String.eqb n (forward_rename dim) then Some ([forward_rename dim], freq) else if String.eqb n dim then Some ([dim], time)
  else match assoc n cs with Some v => if negb (mem dim (fst v)) then Some v else None | None => None end.
Proof.
  intros ND. unfold stft_coords. destruct (pos dim dims) as [ax|]; [|discriminate]. destruct (assoc dim cs) as [[ds old]|]; [|discriminate]. intros [= _ <-]. exists ds, old. split; [reflexivity|]. intros n. rewrite !assoc_assoc_set, (assoc_filter n (fun v => negb (mem dim (fst v))) cs ND). reflexivity.
Qed.
Lemma istft_present dims cs f t : In f dims -> In t dims -> (forall n, In n ["_stft_window"; "_stft_old_coord"; f]%string -> assoc n cs <> None) ->
  exists fa ta ds old, pos f dims = Some fa /\ pos t dims = Some ta /\ assoc "_stft_old_coord" cs = Some (ds, old) /\
    istft_coords dims cs f t = (let rest := assoc_set t ([], old) (remove f (remove "_stft_old_coord" (remove "_stft_window" cs))) in
          let nd := pop_nth ta (set_nth fa t dims) in
          if forallb (fun e => mem (fst e) nd) rest then Ok (nd, map (fun e => (fst e, ([fst e], snd (snd e)))) rest) else Err CoordError).
Proof.
  intros I J H. destruct (pos_in f dims I) as [fa F]. destruct (pos_in t dims J) as [ta T]. unfold istft_coords. rewrite F, T.
  pose proof (H "_stft_window"%string (or_introl eq_refl)) as H1. pose proof (H "_stft_old_coord"%string (or_intror (or_introl eq_refl))) as H2. pose proof (H f (or_intror (or_intror (or_introl eq_refl)))) as H3.
  destruct (assoc "_stft_window" cs); [|contradiction]. destruct (assoc "_stft_old_coord" cs) as [[ds old]|]; [|contradiction]. destruct (assoc f cs); [|contradiction]. exists fa, ta, ds, old. auto.
Qed.
Lemma rest_lookup n t f old cs : assoc n (assoc_set t ([], old) (remove f (remove "_stft_old_coord" (remove "_stft_window" cs)))) =
  if String.eqb n t then Some ([], old) else if String.eqb n f then None else if String.eqb n "_stft_old_coord" then None else if String.eqb n "_stft_window" then None else assoc n cs.
Proof. rewrite assoc_assoc_set, !assoc_remove. reflexivity. Qed.
Theorem round_trip dims cs dim f time freq window : plain dims cs -> In dim dims -> assoc dim cs <> None -> transformed dim f -> ~ In f dims -> own_names f dim -> 
  (forall n, In n dims -> n <> "_stft_window"%string /\ n <> "_stft_old_coord"%string) ->
  exists nd out back, stft_coords dims cs dim time freq window = Ok (nd, out) /\ istft_coords nd out f dim = Ok (dims, back) /\ forall n, assoc n back = assoc n cs.
Proof.
  intros (ND & NK & PL) I HA TR NF (NE & ON) NN. destruct (stft_coords dims cs dim time freq window) as [[nd out]|e] eqn:E.
  2:{ exfalso. unfold stft_coords in E. destruct (pos_in dim dims I) as [n P]. rewrite P in E. destruct (assoc dim cs) as [[? ?]|]; [discriminate|contradiction]. }
  destruct (stft_result _ _ _ _ _ _ _ _ E) as (a & b & f' & Ed & TR' & End). apply forward_spec in TR. apply forward_spec in TR'. rewrite TR in TR'. subst f'.
  destruct (stft_lookup _ _ _ _ _ _ _ _ NK E) as (ds & old & OLD & LK). rewrite TR in LK. destruct (ON f (or_introl eq_refl)) as [F1 F2]. destruct (ON dim (or_intror eq_refl)) as [D1 D2].
  assert (NDnd : NoDup nd).
  { subst nd dims. destruct (NoDup_remove _ _ _ ND) as [N1 N2]. change (f :: b ++ [dim]) with ((f :: b) ++ [dim]). apply (NoDup_Add (a := f) (l := a ++ b ++ [dim])); [apply Add_app|]. split.
    - rewrite app_assoc. apply (NoDup_Add (a := dim) (l := (a ++ b) ++ [])); [apply Add_app|]. rewrite app_nil_r. split; assumption.
    - intros J. apply in_app_or in J as [J|J]; [apply NF, in_or_app; left; exact J|]. apply in_app_or in J as [J|[J|[]]]; [apply NF, in_or_app; right; right; exact J|]. exact (NE (eq_sym J)). }
  destruct (istft_present nd out f dim) as (fa & ta & ds' & old' & PF & PT & OLD' & IE).
  { subst nd. apply in_elt. } { subst nd. apply in_or_app. right. right. apply in_or_app. right. left. reflexivity. }
  { intros n [<-|[<-|[<-|[]]]]; rewrite LK; cbn; try discriminate. rewrite (proj2 (String.eqb_neq _ _) F2), (proj2 (String.eqb_neq _ _) F1), String.eqb_refl. discriminate. }
  rewrite LK in OLD'. cbn in OLD'. injection OLD' as <- <-. assert (Back : pop_nth ta (set_nth fa dim nd) = dims).
  { subst nd. assert (NA : ~ In f a) by (intros J; apply NF; subst dims; apply in_or_app; left; exact J). rewrite pos_at in PF by exact NA. injection PF as <-. rewrite set_at. assert (EA : a ++ f :: b ++ [dim] = (a ++ f :: b) ++ dim :: []) by (rewrite <- app_assoc; reflexivity). rewrite EA in PT.
    rewrite pos_at in PT by (intros J; destruct (nodup_notin a dim b) as [X Y]; [subst dims; exact ND|]; apply in_app_or in J as [J|[J|J]]; [exact (X J)|exact (NE J)|exact (Y J)]). injection PT as <-.
    replace (List.length (a ++ f :: b)) with (List.length (a ++ dim :: b)) by (rewrite !app_length; reflexivity). replace (a ++ dim :: b ++ [dim]) with ((a ++ dim :: b) ++ [dim]) by (rewrite <- app_assoc; reflexivity). rewrite pop_at, app_nil_r. symmetry. exact Ed. }
  cbn zeta in IE. rewrite Back in IE. assert (LR : forall n, assoc n (assoc_set dim ([], old) (remove f (remove "_stft_old_coord" (remove "_stft_window" out)))) = if String.eqb n dim then Some ([], old) else assoc n cs).
  { intros n. rewrite rest_lookup, LK. destruct (String.eqb_spec n dim) as [->|Nd]; [reflexivity|]. assert (Out : ~ In n dims -> assoc n cs = None) by (intros J; destruct (assoc n cs) as [[ds1 v]|] eqn:X; [destruct (PL _ _ _ X); contradiction|reflexivity]).
    destruct (String.eqb_spec n f) as [->|]; [symmetry; apply Out, NF|]. destruct (String.eqb_spec n "_stft_old_coord") as [->|]; [symmetry; apply Out; intros J; destruct (NN _ J) as [W1 W2]; congruence|]. destruct (String.eqb_spec n "_stft_window") as [->|]; [symmetry; apply Out; intros J; destruct (NN _ J) as [W1 W2]; congruence|].
    destruct (assoc n cs) as [[ds1 v]|] eqn:X; [|reflexivity]. destruct (PL _ _ _ X) as [_ ->]. cbn [fst]. assert (M : mem dim [n] = false) by (apply mem_false; intros [J|[]]; congruence). rewrite M. reflexivity. }
  set (rest := assoc_set dim ([], old) _) in *. assert (FB : forallb (fun e => mem (fst e) dims) rest = true).
  { apply forallb_forall. intros [n v] J. apply mem_In'. cbn [fst]. assert (K : exists w, assoc n rest = Some w) by (apply assoc_In, in_map_iff; exists (n, v); auto). rewrite LR in K. destruct (String.eqb_spec n dim) as [->|]; [exact I|]. destruct K as [[ds1 w] K]. apply (PL _ _ _ K). }
  rewrite FB in IE. exists nd, out. eexists. split; [reflexivity|]. split; [exact IE|]. intros n. rewrite assoc_map_names, LR. destruct (String.eqb_spec n dim) as [->|Nd].
  - rewrite OLD. destruct (PL _ _ _ OLD) as [_ ->]. reflexivity.
  - destruct (assoc n cs) as [[ds1 v]|] eqn:X; [|reflexivity]. destruct (PL _ _ _ X) as [_ ->]. reflexivity.
Qed.
Theorem extra_refused dims cs dim f time freq window nd out n ds v : NoDup dims -> NoDup (map fst cs) -> stft_coords dims cs dim time freq window = Ok (nd, out) -> transformed dim f -> own_names f dim ->
  assoc n cs = Some (ds, v) -> ~ In dim ds -> ~ In n dims -> n <> f -> n <> "_stft_window"%string -> n <> "_stft_old_coord"%string -> istft_coords nd out f dim = Err CoordError.
Proof.
  intros ND NK E TR (NE & ON) X ND' NI Nf N1 N2. destruct (stft_result _ _ _ _ _ _ _ _ E) as (a & b & f' & Ed & TR' & End). apply forward_spec in TR. apply forward_spec in TR'. rewrite TR in TR'. subst f'.
  destruct (stft_lookup _ _ _ _ _ _ _ _ NK E) as (ds0 & old & OLD & LK). rewrite TR in LK. destruct (ON f (or_introl eq_refl)) as [F1 F2].
  destruct (istft_present nd out f dim) as (fa & ta & ds' & old' & PF & PT & OLD' & IE).
  { subst nd. apply in_elt. } { subst nd. apply in_or_app. right. right. apply in_or_app. right. left. reflexivity. }
  { intros k [<-|[<-|[<-|[]]]]; rewrite LK; cbn; try discriminate. rewrite (proj2 (String.eqb_neq _ _) F2), (proj2 (String.eqb_neq _ _) F1), String.eqb_refl. discriminate. }
  rewrite IE. cbn zeta. set (rest := assoc_set dim _ _). destruct (forallb _ rest) eqn:FB; [|reflexivity]. exfalso. rewrite forallb_forall in FB.
  assert (Nd : n <> dim) by (intros ->; apply NI; subst dims; apply in_elt).
  assert (K : In n (map fst rest)).
  { apply assoc_In. unfold rest. rewrite rest_lookup, LK. rewrite !(proj2 (String.eqb_neq _ _)) by assumption. rewrite X. cbn [fst]. destruct (mem dim ds) eqn:M; [apply mem_In' in M; contradiction|]. cbn. eauto. }
  apply in_map_iff in K as ([k w] & Ek & K). cbn in Ek. subst k. specialize (FB _ K). cbn [fst] in FB. apply mem_In' in FB. apply NI.
  assert (Sub : forall i (l : list string) x y, In x (set_nth i y l) -> x = y \/ In x l) by (induction i as [|i IHi]; intros [|z l] x y; cbn; try tauto; [intros [J|J]; auto|intros [J|J]; auto; destruct (IHi _ _ _ J); auto]).
  assert (Pop : forall i (l : list string) x, In x (pop_nth i l) -> In x l) by (induction i as [|i IHi]; intros [|z l] x; cbn; try tauto; intros [J|J]; auto).
  apply Pop in FB. apply Sub in FB as [->|FB]; [contradiction|]. subst nd dims. apply in_app_or in FB as [J|[J|J]]; [apply in_or_app; left; exact J|congruence|]. apply in_app_or in J as [J|[J|[]]]; [apply in_or_app; right; right; exact J|congruence].
Qed.
End C.
Theorem istft_trim_at {A} dims (cs : coords A) f t nd out fa ta : f <> t -> NoDup dims -> istft_coords dims cs f t = Ok (nd, out) -> trimmed_axis dims f = Some fa -> at_axis dims ta t -> at_axis nd fa t <-> (fa < ta)%nat.
Proof.
  intros N ND E F T. apply (istft_trim dims cs f t nd out fa ta N ND E F). apply nth_error_split in T as (a & b & -> & <-). apply pos_at. apply (nodup_notin _ _ _ ND).
Qed.
Theorem stft_values {A} dims (cs : coords A) dim f time freq window nd out : NoDup (map fst cs) -> transformed dim f -> own_names f dim -> stft_coords dims cs dim time freq window = Ok (nd, out) ->
  assoc f out = Some ([f], freq) /\ assoc dim out = Some ([dim], time) /\ assoc "_stft_window" out = Some ([], window) /\ (exists ds old, assoc dim cs = Some (ds, old) /\ assoc "_stft_old_coord" out = Some ([], old)) /\
  forall n x, n <> f -> n <> dim -> n <> "_stft_window"%string -> n <> "_stft_old_coord"%string -> assoc n out = Some x <-> assoc n cs = Some x /\ ~ In dim (fst x).
Proof.
  intros NK TR (NE & ON) E. destruct (stft_lookup _ _ _ _ _ _ _ _ NK E) as (ds & old & OLD & LK). apply forward_spec in TR. rewrite TR in LK. destruct (ON f (or_introl eq_refl)) as [F1 F2]. destruct (ON dim (or_intror eq_refl)) as [D1 D2].
  assert (NE' : dim <> f) by congruence. split; [rewrite LK, (proj2 (String.eqb_neq _ _) F2), (proj2 (String.eqb_neq _ _) F1), String.eqb_refl; reflexivity|]. split; [rewrite LK, (proj2 (String.eqb_neq _ _) D2), (proj2 (String.eqb_neq _ _) D1), (proj2 (String.eqb_neq _ _) NE'), String.eqb_refl; reflexivity|].
  split; [rewrite LK; reflexivity|]. split; [exists ds, old; split; [exact OLD|rewrite LK; reflexivity]|]. intros n x N1 N2 N3 N4. rewrite LK, !(proj2 (String.eqb_neq _ _)) by assumption. destruct (assoc n cs) as [v|]; [|split; [discriminate|intros [H _]; discriminate]].
  destruct (mem dim (fst v)) eqn:M; cbn [negb]; [apply mem_In' in M; split; [discriminate|intros [[= ->] H]; contradiction]|]. apply mem_false in M. split; [intros [= <-]; auto|intros [H _]; exact H].
Qed.
