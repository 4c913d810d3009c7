(** DASDAE files: sequences of writes, and writes that keep every patch. *)
From Verif Require Import Base BaseFacts CoordModel NdModel FrameModel FrameProofs5 ChunkModel CmModel CmSpec CmProofs CmProofs5
  AttrsModel AttrsSpec AttrsProofs AttrsProofs2 DasdaeModel DasdaeSpec DasdaeProofs DasdaeProofs2 DasdaeProofs5 DasdaeProofs6 CmProofs18 AttrsProofs7 AttrsProofs11.
From Coq Require Import Strings.String Strings.Ascii Permutation Sorted.
From Coq Require Import ZifyBool Lia.
Local Open Scope Z_scope.
Local Open Scope list_scope.

Section Writes.
Context {A : Type}.
Implicit Types p q : dpatch A.
Variable show : list scal -> list string.
Variable times : list scal -> bool.

Lemma write_seq_save (ws : list (list sdict * list (dpatch A))) l : named show times ws l -> forall f, write_seq show times ws f = save_all l f.
Proof.
  induction 1 as [|rows ps ns ws l E F IH]; intros f; [reflexivity|]. cbn [write_seq]. rewrite save_all_app.
  unfold dasdae_write. rewrite E. cbn [bind]. destruct (save_all (combine ns ps) f); cbn [bind]; [apply IH|reflexivity].
Qed.
Theorem writes_read (ws : list (list sdict * list (dpatch A))) l : named show times ws l -> all_storable l -> replaced l ->
  exists f ns ps, write_seq show times ws [] = Ok f /\ dasdae_read f = Ok ps /\ names_in_order l ns /\
    Forall2 (fun n p' => exists p, saved_last l n p /\ read_back p p' /\
      ((forall m c, assoc m (cm_coords (dp_cm p)) = Some c -> inferred c) -> same_dpatch p p')) ns ps.
Proof.
  intros F S R. destruct (save_read _ S R) as (f & ns & ps & E1 & E2 & O & Q). exists f, ns, ps. rewrite (write_seq_save ws l F). do 3 (split; [assumption|]).
  revert Q. apply Forall2_impl. intros n p' (p & L & Rd & B). exists p. split; [exact L|]. split; [exact B|]. intros I.
  assert (Sp : storable p). { destruct L as (l1 & l2 & E & _). rewrite E in S. apply (S n p). apply in_app_iff. right. now left. }
  now apply (read_exact p p' Sp I Rd).
Qed.

(** ** One write, distinct names *)
Lemma nodup_replaced (l : list (string * dpatch A)) : NoDup (map fst l) -> replaced l.
Proof.
  intros ND n p q (l1 & l2 & -> & _) I. assert (In (n, p) (l1 ++ (n, p) :: l2)) by (apply in_app_iff; right; now left).
  assert (p = q). { pose proof (in_assoc _ _ _ ND H) as H1. pose proof (in_assoc _ _ _ ND I) as H2. congruence. } subst q. split; apply incl_refl.
Qed.
Lemma combine_fst {X Y} (a : list X) (b : list Y) : List.length a = List.length b -> map fst (combine a b) = a /\ map snd (combine a b) = b.
Proof. revert b. induction a as [|x a IH]; intros [|y b] E; try discriminate; auto. cbn. injection E as E. destruct (IH b E) as (-> & ->). auto. Qed.
Lemma saved_pick (l : list (string * dpatch A)) ns : NoDup (map fst l) -> NoDup ns -> (forall n, In n ns <-> In n (map fst l)) -> forall (ps : list (dpatch A)) (P : dpatch A -> dpatch A -> Prop),
  Forall2 (fun n p' => exists p, saved_last l n p /\ P p p') ns ps -> exists qs, Permutation (map snd l) qs /\ Forall2 P qs ps.
Proof.
  intros ND Nn I ps P F.
  assert (G : forall ns', (forall n, In n ns' -> In n (map fst l)) -> forall ps', Forall2 (fun n p' => exists p, saved_last l n p /\ P p p') ns' ps' ->
     Forall2 P (flat_map (fun n => match assoc n l with Some p => [p] | None => [] end) ns') ps').
  { intros ns' S ps' F'. induction F' as [|n p' ns' ps' (p & (l1 & l2 & E & _) & Pp) F' IH]; [constructor|]. cbn [flat_map].
    assert (Ea : assoc n l = Some p). { apply in_assoc; [exact ND|]. rewrite E. apply in_app_iff. right. now left. }
    rewrite Ea. constructor; [exact Pp|]. apply IH. intros m M. apply S. now right. }
  eexists. split; [|apply (G ns (fun n => proj1 (I n)) ps F)].
  assert (Pm : Permutation (map fst l) ns) by (apply NoDup_Permutation; auto; intros n; symmetry; apply I).
  rewrite <- (Permutation_flat_map _ Pm). clear -ND.
  assert (H : forall l', incl l' l -> map snd l' = flat_map (fun n => match assoc n l with Some p => [p] | None => [] end) (map fst l')).
  { induction l' as [|(n & p) l' IH]; intros I; [reflexivity|]. cbn [map flat_map fst snd]. rewrite (in_assoc n p l ND) by (apply I; now left). cbn [app]. f_equal. apply IH.
    intros x X. apply I. now right. }
  rewrite (H l (incl_refl l)). apply Permutation_refl.
Qed.
Lemma slash_app a b : contains "/" (a ++ b) -> contains "/" a \/ contains "/" b.
Proof.
  induction a as [|c a IH]; intros (x & y & E); [right; exists x, y; exact E|]. destruct x as [|d x]; cbn in E; injection E as -> E.
  - left. exists EmptyString, a. reflexivity.
  - destruct IH as [(u & v & ->)|H]; [exists x, y; exact E|left; exists (String d u), v; reflexivity|now right].
Qed.
Lemma slash_stamp s : stamp s -> ~ contains "/" (smap tr s).
Proof.
  intros H. assert (G : forall pat, str_contains "/" (smap tr pat) = false -> fits pat s = true -> ~ contains "/" (smap tr s)).
  { intros pat C F (a & b & E). apply fits_map in F. revert E. apply (fits_no (smap tr pat) "/"%char) with (3 := F); [intros c D; now apply digit_not|].
    intros a' b' E. assert (C' : contains "/" (smap tr pat)) by (exists a', b'; exact E). apply str_contains_spec in C'. congruence. }
  destruct H as [H|H]; (apply (G _) with (2 := H); reflexivity).
Qed.
Theorem write_keeps ps sec : (forall p, In p ps -> storable p) -> (forall p, In p ps -> plain_name p) -> (forall p, In p ps -> no_slash p) ->
  shows_times show times ps sec ->
  (forall i j p q, nth_error ps i = Some p -> nth_error ps j = Some q ->
     same_text p q -> sec p "time_min"%string = sec q "time_min"%string -> sec p "time_max"%string = sec q "time_max"%string -> i = j) ->
  exists f ps' qs, dasdae_write show times (memory_rows ps) ps [] = Ok f /\ dasdae_read f = Ok ps' /\ Permutation ps qs /\ Forall2 read_back qs ps'.
Proof.
  intros St Pl Sl Sh D.
  assert (Nd : forall p, In p ps -> NoDup (map fst (a_coords (dp_attrs p)))). { intros p P. apply t_coords. apply (st_family _ (St p P)). now left. }
  destruct (names_times show times ps sec Pl Nd Sh) as (ns & E & L & N). destruct (combine_fst ns ps L) as (C1 & C2).
  assert (NDn : NoDup ns).
  { apply NoDup_nth_error. intros i j Li Eij. destruct (nth_error ns i) as [n|] eqn:Ei; [|apply nth_error_None in Ei; lia]. symmetry in Eij.
    destruct (nth_error ps i) as [p|] eqn:Ep; [|apply nth_error_None in Ep; lia]. assert (Lj : (j < List.length ns)%nat) by (apply nth_error_Some; congruence).
    destruct (nth_error ps j) as [q|] eqn:Eq; [|apply nth_error_None in Eq; lia]. destruct (proj1 (N i j p q n n Ep Eq Ei Eij) eq_refl) as (T1 & T2 & T3). now apply (D i j p q). }
  assert (Nn : forall n, In n ns -> node_name n).
  { intros n I. apply In_nth_error in I. destruct I as (i & Ei). assert (Li : (i < List.length ps)%nat) by (rewrite <- L; apply nth_error_Some; congruence).
    destruct (nth_error ps i) as [p|] eqn:Ep; [|apply nth_error_None in Ep; lia]. destruct (names_full show times ps Pl) as (ns' & E' & _ & F). assert (ns' = ns) by congruence. subst ns'.
    rewrite (F i p Ep) in Ei. injection Ei as <-. unfold full. split; [discriminate|]. split; [discriminate|].
    assert (P : In p ps) by (eapply nth_error_In; eauto). destruct (Pl p P) as (_ & _ & Tx).
    assert (Np : ps <> []) by (intros ->; destruct i; discriminate).
    assert (Rs : forall r, In r (rest show times ps i) -> ~ contains "/" r).
    { intros r R. unfold rest in R. apply in_map_iff in R. destruct R as (c & <- & R). apply filter_In in R. destruct R as (Cc & _).
      assert (X : exists f, In (c, f) [("time_min"%string, s_min); ("time_max"%string, s_max)]) by (destruct Cc as [<-|[<-|[]]]; eexists; cbn; [left|right; left]; reflexivity).
      destruct X as (f & Cf). destruct (Sh c f Cf) as (col & F1 & Tm & F2). destruct (time_column ps c f col Nd Cf F1) as (-> & Hc). destruct (Hc Np) as (_ & H2). unfold field_text. rewrite H2, Tm.
      clear -F2 Ep. revert i Ep. induction F2 as [|x s xs ss Sx F2 IH]; intros [|k] K; try discriminate; cbn [nth_error map nth] in *; [|now apply (IH k)].
      rewrite (format_shown s (sec x c) Sx). apply slash_stamp, Sx. }
    assert (W : forall k, In k words -> ~ contains "/" (txt p k)). { intros k K. destruct (Tx k K) as (s & T & _). rewrite (txt_spec p k s T). now apply (Sl p P k s K). }
    assert (J : forall l, (forall r, In r l -> ~ contains "/" r) -> ~ contains "/" (str_join "__" l)).
    { induction l as [|x l IH]; intros H C; [apply str_contains_spec in C; discriminate|]. destruct l as [|y l]; [cbn [str_join] in C; now apply (H x (or_introl eq_refl))|].
      rewrite join_cons in C by discriminate. apply slash_app in C as [C|C]; [now apply (H x (or_introl eq_refl))|]. apply slash_app in C as [C|C]; [apply str_contains_spec in C; discriminate|].
      revert C. apply IH. intros r R. apply H. now right. }
    intros C. apply slash_app in C as [C|C]; [apply str_contains_spec in C; discriminate|]. revert C. apply J. intros r [<-|[<-|[<-|R]]]; [apply W; cbn; tauto|apply W; cbn; tauto|apply W; cbn; tauto|now apply Rs]. }
  set (l := combine ns ps) in *.
  assert (As : all_storable l). { intros n p I. split; [apply St; rewrite <- C2; apply in_map_iff; exists (n, p); auto|apply Nn; rewrite <- C1; apply in_map_iff; exists (n, p); auto]. }
  assert (NDl : NoDup (map fst l)) by now rewrite C1.
  destruct (save_read l As (nodup_replaced l NDl)) as (f & ks & ps' & E1 & E2 & (O1 & _ & O2) & Q).
  destruct (saved_pick l ks NDl O1 O2 ps' (fun p p' => read_back p p')) as (qs & Pm & Fq).
  { revert Q. apply Forall2_impl. intros n p' (p & Lp & _ & B). eauto. }
  exists f, ps', qs. split; [unfold dasdae_write; rewrite E; exact E1|]. split; [exact E2|]. split; [now rewrite <- C2|exact Fq].
Qed.
End Writes.

(** ** Deciding that a patch can be stored *)
Definition lacks (w s : string) : bool := negb (str_contains w s).
Lemma lacks_ok w s : lacks w s = true -> ~ contains w s.
Proof. unfold lacks. rewrite negb_true_iff. intros E C. apply str_contains_spec in C. congruence. Qed.
Definition placeholderb (m : mcoord) : bool := match m with M1 (CPart _) | MNP _ => true | _ => false end.
Definition one_sampleb (m : mcoord) : bool := match m with M1 (CRange r) => r_len r =? 1 | _ => false end.
Definition noneb (v : scal) : bool := match v with ANone => true | _ => false end.
Definition storableb {A} (p : dpatch A) : bool :=
  patch_wfb (dp_patch p) && familyb [dp_attrs p] && clearb (dp_attrs p)
  && negb (String.eqb (a_dims (dp_attrs p)) EmptyString) && strs_eqb (dim_tuple (dp_attrs p)) (cm_dims (dp_cm p))
  && forallb (fun e => match snd e with [] => false | _ => true end) (cm_dmap (dp_cm p))
  && forallb (lacks "_attrs_") (map fst (a_vals (dp_attrs p)))
  && forallb (fun n => lacks "_coord_" n && lacks "_cdims_" n && lacks "/" n) (map fst (cm_coords (dp_cm p)))
  && forallb (fun e => (lacks "_" (fst e) && negb (String.eqb (fst e) "d"))
                       || (str_contains "_" (fst e) && noneb (unit_in (dp_units p) (fst e)) && negb (one_sampleb (snd e)))) (cm_coords (dp_cm p))
  && forallb (fun e => negb (placeholderb (snd e)) || (noneb (unit_in (dp_units p) (fst e)) && match m_shape (snd e) with n :: _ => negb (n =? 1) | [] => true end)) (cm_coords (dp_cm p)).
Lemma storableb_ok {A} (p : dpatch A) : a_coords (dp_attrs p) = cm_sums (dp_cm p) (dp_units p) -> storableb p = true -> storable p.
Proof.
  intros Hs. unfold storableb. rewrite !andb_true_iff. intros (((((((((H1 & H2) & H3) & H4) & H5) & H6) & H7) & H8) & H9) & H10).
  rewrite forallb_forall in H6, H7, H8, H9, H10. constructor; auto.
  - now apply patch_wfb_ok.
  - now apply familyb_ok.
  - now apply clearb_ok.
  - intros E. rewrite E in H4. discriminate.
  - now apply strs_eqb_eq.
  - intros n ds E ->. apply assoc_in in E. specialize (H6 _ E). discriminate.
  - intros k K. apply lacks_ok. auto.
  - intros n I. specialize (H8 n I). rewrite !andb_true_iff in H8. destruct H8 as ((A1 & A2) & A3). split; [|split]; now apply lacks_ok.
  - intros n m E. apply assoc_in in E. specialize (H9 _ E). cbn [fst snd] in H9. apply orb_true_iff in H9 as [H9|H9].
    + apply andb_true_iff in H9 as (L & D). left. split; [now apply lacks_ok|]. intros ->. discriminate.
    + rewrite !andb_true_iff in H9. destruct H9 as ((L & U) & O). right. split; [now apply str_contains_spec|]. split; [destruct (unit_in (dp_units p) n); try discriminate; reflexivity|].
      intros (r & -> & L1). cbn [one_sampleb] in O. rewrite L1 in O. discriminate.
  - intros n m E P. apply assoc_in in E. specialize (H10 _ E). cbn [fst snd] in H10. apply orb_true_iff in H10 as [H10|H10]; [destruct m as [[]| |]; cbn in P, H10; try contradiction; discriminate|].
    apply andb_true_iff in H10 as (U & L). split; [destruct (unit_in (dp_units p) n); try discriminate; reflexivity|]. destruct (m_shape m) as [|x t]; [discriminate|]. cbn [nth_error]. intros [= ->]. discriminate.
Qed.
Definition node_nameb (n : string) : bool := negb (bad_name n).
Lemma node_nameb_ok n : node_nameb n = true -> node_name n.
Proof.
  unfold node_nameb, bad_name. rewrite !negb_orb, !andb_true_iff, !negb_true_iff. intros ((H1 & H2) & H3). split; [intros ->; discriminate|]. split; [intros ->; discriminate|].
  intros C. apply str_contains_spec in C. congruence.
Qed.

(** ** One patch *)
Section One.
Context {A : Type}.
Lemma one_patch (p : dpatch A) n : storable p -> node_name n ->
  exists f, save_patch p n [] = Ok f /\ dasdae_read f = (do p' <- read_patch (fresh p); Ok [p']).
Proof.
  intros S N. rewrite (save_ok p n [] S N). eexists. split; [reflexivity|]. unfold old_group. cbn [assoc g_attrs g_arrays assoc_set].
  rewrite (put_self (entries p)) by (now apply entries_nodup). rewrite (put_self (coord_arrays p)) by (now apply arrays_nodup).
  unfold dasdae_read. cbn [map fst]. change (sort_strs [n]) with [n]. cbn [map_result assoc]. rewrite String.eqb_refl. fold (fresh p). reflexivity.
Qed.
Theorem again (p : dpatch A) n : storable p -> node_name n ->
  exists f p' f' p'', save_patch p n [] = Ok f /\ dasdae_read f = Ok [p'] /\ read_back p p' /\ storable p' /\
    save_patch p' n [] = Ok f' /\ dasdae_read f' = Ok [p''] /\ same_dpatch p' p''.
Proof.
  intros S N. destruct (one_patch p n S N) as (f & E & R). destruct (read_fresh p S) as (p' & E' & B & S' & I & _). rewrite E' in R. cbn [bind] in R.
  destruct (one_patch p' n S' N) as (f' & F & R'). destruct (read_fresh p' S') as (p'' & E'' & _). rewrite E'' in R'. cbn [bind] in R'.
  exists f, p', f', p''. do 6 (split; [assumption|]). apply read_exact; assumption.
Qed.
End One.
