(** Proofs for conversions to and from ObsPy streams (C107). *)
From Verif Require Import Base BaseFacts FrameModel CmProofs StreamModel StreamSpec.
From Coq Require Import Strings.String Lia.
Local Open Scope list_scope.

Section S.
Context {A V : Type}.
Implicit Types (p : patch2 A V).
Lemma column_length rows j n : Forall (fun r : list A => List.length r = n) rows -> (j < n)%nat -> List.length (column rows j) = List.length rows.
Proof. intros F L. induction F as [|r t E F IH]; [reflexivity|]. unfold column in *. cbn. destruct (nth_error r j) eqn:X; [cbn; rewrite IH; reflexivity|]. apply nth_error_None in X. lia. Qed.
Lemma column_nth rows j n i : Forall (fun r : list A => List.length r = n) rows -> (j < n)%nat -> nth_error (column rows j) i = match nth_error rows i with Some l => nth_error l j | None => None end.
Proof.
  intros F L. revert i. induction F as [|r t E F IH]; intros i; [destruct i; reflexivity|]. unfold column in *. cbn. destruct (nth_error r j) eqn:X; [|apply nth_error_None in X; lia]. destruct i as [|i]; cbn; [symmetry; exact X|apply IH].
Qed.
Lemma nth_map_seq {X} (f : nat -> X) n i : nth_error (map f (seq 0 n)) i = if Nat.ltb i n then Some (f i) else None.
Proof.
  destruct (Nat.ltb_spec i n) as [L|L]; [|apply nth_error_None; rewrite map_length, seq_length; exact L]. rewrite (map_nth_error f i (seq 0 n) (d := i)); [reflexivity|]. rewrite (nth_error_nth' _ 0%nat) by (rewrite seq_length; exact L). rewrite seq_nth by exact L. reflexivity.
Qed.
Definition lined p : list (list A) := if String.eqb (fst (q_dims p)) "time" then columns (q_rows p) (List.length (q_values p)) else q_rows p.
Lemma lined_shape p : shaped p -> List.length (lined p) = List.length (q_values p) /\ Forall (fun r => List.length r = q_len p) (lined p) /\
  forall i j, match nth_error (lined p) i with Some l => nth_error l j | None => None end = sample p i j.
Proof.
  unfold shaped, lined, sample. destruct (String.eqb (fst (q_dims p)) "time").
  - intros [L F]. split; [unfold columns; rewrite map_length, seq_length; reflexivity|]. split.
    + apply Forall_forall. intros r I. apply in_map_iff in I as (j & <- & J). apply in_seq in J. rewrite (column_length _ _ _ F) by lia. exact L.
    + intros i j. unfold columns. rewrite nth_map_seq. destruct (Nat.ltb_spec i (List.length (q_values p))) as [H|H]; [apply (column_nth _ _ _ _ F H)|]. destruct (nth_error (q_rows p) j) as [r|] eqn:X; [|reflexivity]. symmetry. apply nth_error_None. apply nth_error_In in X. rewrite Forall_forall in F. rewrite (F r X). exact H.
  - intros [L F]. split; [exact L|]. split; [exact F|reflexivity].
Qed.
Theorem to_ok p d : other_dim p d -> d <> "time"%string -> to_stream p = Ok (map (fun e => mkTrace (q_start p) (q_step p) (fst e) (assoc_set d (snd e) (q_attrs p))) (combine (lined p) (q_values p))).
Proof.
  intros O N. unfold to_stream, check_patch, lined. destruct p as [[a b] rows vals st sp ln at_]. unfold other_dim in O. cbn [q_dims q_rows q_values q_start q_step q_attrs fst snd] in *. destruct O as [E|E]; injection E as -> ->.
  - assert (M : mem "time" [d; "time"]%string = true) by (apply mem_In'; right; left; reflexivity). rewrite M. cbn [negb andb bind]. rewrite (proj2 (String.eqb_neq _ _) N). reflexivity.
  - assert (M : mem "time" ["time"; d]%string = true) by (apply mem_In'; left; reflexivity). rewrite M. cbn [negb andb bind]. reflexivity.
Qed.
Theorem to_refused p : (forall d, ~ other_dim p d) -> to_stream p = Err PatchError.
Proof.
  intros H. unfold to_stream, check_patch. destruct p as [[a b] rows vals st sp ln at_]. cbn [q_dims fst snd]. assert (M : mem "time" [a; b] = false) by (apply mem_false; intros [E|[E|[]]]; subst; [apply (H b); right|apply (H a); left]; reflexivity). rewrite M. reflexivity.
Qed.
Theorem stream_traces p d : shaped p -> other_dim p d -> d <> "time"%string -> exists ts, to_stream p = Ok ts /\ List.length ts = List.length (q_values p) /\
  forall i t, nth_error ts i = Some t -> t_start t = q_start p /\ t_step t = q_step p /\ List.length (t_data t) = q_len p /\ (forall j, nth_error (t_data t) j = sample p i j) /\ assoc d (t_stats t) = nth_error (q_values p) i /\ forall k, k <> d -> assoc k (t_stats t) = assoc k (q_attrs p).
Proof.
  intros SH O N. destruct (lined_shape p SH) as (L & F & S0). eexists. split; [apply (to_ok p d O N)|]. split; [rewrite map_length, combine_length, L; apply Nat.min_id|]. intros i t E.
  assert (X : exists r v, nth_error (lined p) i = Some r /\ nth_error (q_values p) i = Some v /\ t = mkTrace (q_start p) (q_step p) r (assoc_set d v (q_attrs p))).
  { clear - E. revert i E. generalize (lined p) (q_values p). intros l vs. revert vs. induction l as [|r l IH]; intros [|v vs] [|i] E; cbn in E; try discriminate; [injection E as <-; exists r, v; auto|]. exact (IH vs i E). }
  destruct X as (r & v & R & W & ->). cbn [t_start t_step t_data t_stats]. split; [reflexivity|]. split; [reflexivity|]. split; [rewrite Forall_forall in F; apply F; eapply nth_error_In; exact R|]. split; [intros j; rewrite <- S0, R; reflexivity|]. split; [rewrite assoc_assoc_set, String.eqb_refl; symmetry; exact W|].
  intros k K. rewrite assoc_assoc_set, (proj2 (String.eqb_neq _ _) K). reflexivity.
Qed.
Lemma assoc_kept k (l : list (string * V)) : ~ In k removed -> assoc k (filter (fun e => negb (mem (fst e) removed)) l) = assoc k l.
Proof.
  intros N. induction l as [|[x v] t IH]; [reflexivity|]. cbn [filter fst]. destruct (mem x removed) eqn:M; cbn [negb]; cbn [assoc]; [|rewrite IH; reflexivity]. rewrite IH. destruct (String.eqb_spec k x) as [->|]; [apply mem_In' in M; contradiction|reflexivity].
Qed.
Lemma last_in {X} (l : list X) d : In (last l d) (d :: l).
Proof. revert d. induction l as [|x t IH]; intros d; [left; reflexivity|]. destruct t as [|y t]; [right; left; reflexivity|]. change (last (x :: y :: t) d) with (last (y :: t) d). destruct (IH d) as [E|I]; [left; exact E|right; right; exact I]. Qed.
Theorem from_ok (ts : list (trace A V)) dim p : from_stream ts dim = Ok (Some p) <-> exists front tr, ts = front ++ [tr] /\ (forall t, In t ts -> List.length (t_data t) = List.length (t_data tr) /\ assoc dim (t_stats t) <> None) /\
  q_dims p = (dim, "time"%string) /\ q_rows p = map t_data ts /\ map Some (q_values p) = map (fun t => assoc dim (t_stats t)) ts /\ q_start p = t_start tr /\ q_step p = t_step tr /\ q_len p = List.length (t_data tr) /\ q_attrs p = filter (fun e => negb (mem (fst e) removed)) (t_stats tr).
Proof.
  destruct ts as [|t0 rest]; [split; [discriminate|intros ([|? ?] & tr & E & _); discriminate]|]. unfold from_stream.
  assert (Sp : t0 :: rest = removelast (t0 :: rest) ++ [last rest t0]).
  { rewrite (app_removelast_last t0 (l := t0 :: rest)) at 1 by discriminate. f_equal. f_equal. destruct rest; reflexivity. }
  assert (Val : (forall t, In t (t0 :: rest) -> assoc dim (t_stats t) <> None) -> map Some (flat_map (fun t => match assoc dim (t_stats t) with Some v => [v] | None => [] end) (t0 :: rest)) = map (fun t => assoc dim (t_stats t)) (t0 :: rest)).
  { generalize (t0 :: rest). intros l H. induction l as [|t l IH]; [reflexivity|]. cbn. pose proof (H t (or_introl eq_refl)). destruct (assoc dim (t_stats t)); [|contradiction]. cbn. f_equal. apply IH. intros x I. apply H. right. exact I. }
  assert (Has : forallb (has_stat dim) (t0 :: rest) = true <-> forall t, In t (t0 :: rest) -> assoc dim (t_stats t) <> None).
  { rewrite forallb_forall. unfold has_stat. split; intros H t I; specialize (H t I); destruct (assoc dim (t_stats t)); congruence. }
  assert (Len : forallb (fun t => Nat.eqb (List.length (t_data t)) (List.length (t_data t0))) rest = true <-> forall t, In t (t0 :: rest) -> List.length (t_data t) = List.length (t_data (last rest t0))).
  { rewrite forallb_forall. pose proof (last_in rest t0) as LI. split.
    - intros H. assert (G : forall t, In t (t0 :: rest) -> List.length (t_data t) = List.length (t_data t0)) by (intros t [<-|I]; [reflexivity|apply Nat.eqb_eq, H, I]). intros t I. rewrite (G t I), (G _ LI). reflexivity.
    - intros H t I. apply Nat.eqb_eq. rewrite (H t (or_intror I)), (H t0 (or_introl eq_refl)). reflexivity. }
  split.
  - destruct (forallb _ rest && _) eqn:B; [|discriminate]. apply andb_prop in B as [B1 B2]. pose proof (proj1 Len B1) as B1'. pose proof (proj1 Has B2) as B2'. intros [= <-]. exists (removelast (t0 :: rest)), (last rest t0). split; [exact Sp|]. split; [intros t I; split; [apply B1', I|apply B2', I]|]. cbn [q_dims q_rows q_values q_start q_step q_len q_attrs]. repeat (split; [reflexivity|]). split; [apply Val, B2'|]. repeat split.
  - intros (front & tr & E & H & D & R & W & S1 & S2 & L & At). assert (T : tr = last rest t0) by (rewrite E in Sp; apply app_inj_tail in Sp as [_ Sp]; exact Sp). subst tr.
    rewrite (proj2 Len), (proj2 Has) by (intros t I; apply (H t I)). cbn [andb]. destruct p as [qd qr qv qs qp ql qa]. cbn [q_dims q_rows q_values q_start q_step q_len q_attrs] in *. subst qd qr qs qp ql qa. do 3 f_equal.
    rewrite <- (Val (fun t I => proj2 (H t I))) in W. revert W. generalize (flat_map (fun t : trace A V => match assoc dim (t_stats t) with Some v => [v] | None => [] end) (t0 :: rest)). intros l1. revert qv. induction l1 as [|x l1 IH]; intros [|y qv] W; try discriminate; [reflexivity|]. cbn in W. injection W as -> W. f_equal. apply IH, W.
Qed.
Theorem from_refused (ts : list (trace A V)) dim e : from_stream ts dim = Err e -> e = PatchError /\ ((exists t u, In t ts /\ In u ts /\ List.length (t_data t) <> List.length (t_data u)) \/ exists t, In t ts /\ assoc dim (t_stats t) = None).
Proof.
  destruct ts as [|t0 rest]; [discriminate|]. unfold from_stream. destruct (forallb (fun t => Nat.eqb (List.length (t_data t)) (List.length (t_data t0))) rest) eqn:B1; [destruct (forallb (has_stat dim) (t0 :: rest)) eqn:B2|]; cbn [andb]; [discriminate| |]; intros [= <-]; (split; [reflexivity|]).
  - right. revert B2. generalize (t0 :: rest). intros l. induction l as [|t l IH]; [discriminate|]. cbn. unfold has_stat at 1. destruct (assoc dim (t_stats t)) eqn:X; [|intros _; exists t; auto]. intros B. destruct (IH B) as (u & I & U). eauto.
  - left. assert (X : exists t, In t rest /\ List.length (t_data t) <> List.length (t_data t0)).
    { induction rest as [|t l IH]; [discriminate|]. cbn in B1. destruct (Nat.eqb_spec (List.length (t_data t)) (List.length (t_data t0))) as [_|N]; [destruct (IH B1) as (u & I & U); exists u; split; [right; exact I|exact U]|exists t; split; [left; reflexivity|exact N]]. }
    destruct X as (t & I & N). exists t, t0. split; [right; exact I|]. split; [left; reflexivity|exact N].
Qed.
Theorem stream_back p d : shaped p -> other_dim p d -> d <> "time"%string -> q_values p <> [] -> exists ts r, to_stream p = Ok ts /\ from_stream ts d = Ok (Some r) /\
  q_dims r = (d, "time"%string) /\ q_values r = q_values p /\ q_start r = q_start p /\ q_step r = q_step p /\ q_len r = q_len p /\ (forall i j, sample r i j = sample p i j) /\
  forall k, k <> d -> ~ In k removed -> assoc k (q_attrs r) = assoc k (q_attrs p).
Proof.
  intros SH O N NE. destruct (stream_traces p d SH O N) as (ts & E & L & T). exists ts. assert (NT : ts <> []) by (intros ->; destruct (q_values p); [contradiction|discriminate]).
  destruct (exists_last NT) as (front & tr & Ets).
  assert (In0 : forall t, In t ts -> exists i, nth_error ts i = Some t /\ (i < List.length ts)%nat) by (intros t I; apply In_nth_error in I as [i I]; exists i; split; [exact I|apply nth_error_Some; congruence]).
  assert (Itr : In tr ts) by (rewrite Ets; apply in_or_app; right; left; reflexivity). destruct (In0 tr Itr) as (k & K & _). destruct (T k tr K) as (T1 & T2 & T3 & _ & _ & T6).
  set (r := mkP2 (d, "time"%string) (map t_data ts) (q_values p) (t_start tr) (t_step tr) (List.length (t_data tr)) (filter (fun e => negb (mem (fst e) removed)) (t_stats tr))). exists r. split; [exact E|]. split.
  { apply from_ok. exists front, tr. split; [exact Ets|]. split.
    - intros t I. destruct (In0 t I) as (i & X & B). destruct (T i t X) as (_ & _ & X3 & _ & X5 & _). split; [congruence|]. rewrite X5. apply nth_error_Some. rewrite <- L. exact B.
    - cbn. repeat (split; [reflexivity|]). split; [|repeat split]. clear - T L. revert L T. generalize (q_values p) as vs. intros vs L T. assert (G : forall i t, nth_error ts i = Some t -> assoc d (t_stats t) = nth_error vs i) by (intros i t X; apply (T i t X)). clear T. revert ts L G. induction vs as [|v vs IH]; intros [|t ts] L G; cbn in L; try discriminate; [reflexivity|]. cbn. f_equal; [symmetry; apply (G 0%nat t eq_refl)|]. apply IH; [lia|]. intros i u X. apply (G (S i) u X). }
  cbn [r q_dims q_values q_start q_step q_len q_attrs]. split; [reflexivity|]. split; [reflexivity|]. split; [exact T1|]. split; [exact T2|]. split; [exact T3|]. split.
  - intros i j. unfold sample at 1. cbn [r q_dims q_rows fst]. rewrite (proj2 (String.eqb_neq _ _) N). destruct (nth_error ts i) as [t|] eqn:X.
    + rewrite (map_nth_error _ _ _ X). apply (T i t X).
    + assert (X' : nth_error (map t_data ts) i = None) by (apply nth_error_None; rewrite map_length; apply nth_error_None, X). rewrite X'. destruct (lined_shape p SH) as (L' & _ & S0). rewrite <- S0. assert (Y : nth_error (lined p) i = None) by (apply nth_error_None; apply nth_error_None in X; lia). rewrite Y. reflexivity.
  - intros q Q1 Q2. rewrite assoc_kept by exact Q2. apply T6, Q1.
Qed.
End S.
