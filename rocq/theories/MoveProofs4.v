(** Lemmas behind MoveProps.v: medians along dimensions in turn, window lengths (C82). *)
From Verif Require Import Base BaseFacts CoordModel CoordSpec CoordProofs CoordProofs5 NdModel NdSpec NdProofs FrameModel ChunkModel
  CmModel CmSpec CmProofs CmProofs2 CmProofs3 CmProofs13 TaperProofs2 MergeProofs7 MuteModel MuteProofs2 CalcModel CalcProofs CalcProofs3 MoveModel MoveSpec MoveProofs MoveProofs2 MoveProofs3.
From Coq Require Import Strings.String ZifyBool QArith Qabs Lqa Sorting.Permutation Sorting.Sorted.
Local Open Scope Z_scope.
Local Open Scope list_scope.

Lemma half_nonneg x y v : (0 <= x -> 0 <= y -> v == (x + y) / 2 -> 0 <= v)%Q.
Proof. intros A B ->. apply Qle_shift_div_l; [reflexivity|]. lra. Qed.
Lemma get_axis_nth (a : nd Q) ax n ix : nth_error (nd_shape a) ax = Some n -> inb (nd_shape a) ix -> exists i, nth_error ix ax = Some i /\ 0 <= i < n.
Proof. intros E I. destruct (inb_axis _ _ _ _ I E) as (i & Ei & B). eauto. Qed.

Lemma line_step bn w ax (a : nd Q) n : wf_nd a -> nth_error (nd_shape a) ax = Some n -> 1 < w <= n -> w mod 2 = 1 ->
  exists y b, moving_window bn (fun q => q) a w "median" ax EAuto MReflect 0 0 1 0 = Ok y /\ force y = Some b /\
    line_medians bn w ax a b /\ wf_nd b /\ nd_shape b = nd_shape a /\
    ((forall ix v, nd_get a ix = Some v -> (0 <= v)%Q) -> forall ix v, nd_get b ix = Some v -> (0 <= v)%Q).
Proof.
  intros W E B O. change "median"%string with (op_name OMedian).
  assert (X : exists y, moving_window bn (fun q => q) a w (op_name OMedian) ax EAuto MReflect 0 0 1 0 = Ok y /\
     (if bn then trailing_windows (fun q => q) OMedian w 1 0 ax a y else centred_windows OMedian w 0 MReflect 0 ax a y)).
  { destruct bn.
    - apply bottleneck_ok with n; auto; lia || congruence.
    - apply scipy_ok with n; auto; try lia; try congruence; [left; reflexivity|dlia]. }
  destruct X as (y & Ey & T).
  assert (Wy : wf_nd y) by (destruct bn; apply T). assert (Sy : nd_shape y = nd_shape a) by (destruct bn; apply T).
  assert (V : forall ix, inb (nd_shape a) ix -> exists v, nd_get y ix = Some (Some v) /\
     ((forall ix v, nd_get a ix = Some v -> (0 <= v)%Q) -> (0 <= v)%Q)).
  { intros ix I. destruct (get_axis_nth _ _ _ _ E I) as (i & Ei & Bi). destruct (line_total a ax n ix W E I) as (f & _ & L); [lia|].
    assert (Lf : zlen f = n) by (destruct L as [L _]; rewrite E in L; injection L as L; lia).
    destruct bn.
    - destruct T as (_ & _ & T). destruct (T ix i f I Ei L) as (ws & L' & K & _ & S). cbv zeta in *.
      set (last := if i + w / 2 <? zlen f then i + w / 2 else i) in *.
      assert (La : 0 <= last < zlen f) by (unfold last; destruct (i + w / 2 <? zlen f) eqn:Q; [dlia|lia]). clearbody last.
      destruct S as (v & (x & z & R1 & R2 & Ev) & G); [lia|]. exists v. split; [exact G|]. intros N.
      assert (F : forall u, In u ws -> (0 <= u)%Q).
      { intros u U. apply in_znth in U. destruct U as [k U]. assert (Bk : 0 <= k < zlen ws) by (apply znth_range; eauto).
        rewrite K in U by exact Bk. assert (Bf : 0 <= Z.max 0 (last - w + 1) + k < zlen f) by (apply znth_range; eauto).
        destruct L as [_ L]. rewrite <- L in U by exact Bf. eapply N, U. }
      apply ranked_in in R1, R2. eapply half_nonneg; [apply F, R1|apply F, R2|exact Ev].
    - destruct T as (_ & _ & T). destruct (T ix i f I Ei L) as (ws & v & L' & K & R & G). exists v. split; [exact G|]. intros N.
      apply ranked_in in R. apply in_znth in R. destruct R as [k R]. assert (Bk : 0 <= k < w) by (rewrite <- L'; apply znth_range; eauto).
      destruct (K k Bk) as (x & X & [(j & (J & _) & C)|(C & _)]); [|discriminate]. rewrite R in X. injection X as <-.
      destruct L as [_ L]. rewrite <- L in C by exact J. eapply N, C. }
  destruct (force_ok y Wy) as (b & Eb & Wb & Sb & Hb).
  { intros ix I. rewrite Sy in I. destruct (V ix I) as (v & G & _). eauto. }
  exists y, b. split; [exact Ey|]. split; [exact Eb|]. rewrite Sy in Sb.
  split; [exists y; split; [exact T|]; auto|]. split; [exact Wb|]. split; [exact Sb|].
  intros N ix v Gv. assert (I : inb (nd_shape a) ix) by (rewrite <- Sb; eapply nd_get_inb, Gv).
  destruct (V ix I) as (v' & G & P). apply Hb in G. rewrite Gv in G. injection G as <-. apply P, N.
Qed.

Definition turn (bn : bool) (acc : result (nd Q)) (e : Z * nat) : result (nd Q) :=
  do x <- acc;
  if 1 <? fst e
  then do y <- moving_window bn (fun q => q) x (fst e) "median" (snd e) EAuto MReflect 0 0 1 0; opt_result (force y)
  else Ok x.
Lemma separable_eq bn sizes a : separable_median bn sizes a = fold_left (turn bn) (combine sizes (seq 0 (List.length sizes))) (Ok a).
Proof. reflexivity. Qed.
Lemma turns_ok bn sizes : forall ax a, wf_nd a ->
  (forall k w, nth_error sizes k = Some w -> 1 < w -> w mod 2 = 1 /\ exists n, nth_error (nd_shape a) (ax + k) = Some n /\ w <= n) ->
  exists b, fold_left (turn bn) (combine sizes (seq ax (List.length sizes))) (Ok a) = Ok b /\ medians_in_turn bn ax sizes a b /\
    wf_nd b /\ nd_shape b = nd_shape a /\
    ((forall ix v, nd_get a ix = Some v -> (0 <= v)%Q) -> forall ix v, nd_get b ix = Some v -> (0 <= v)%Q).
Proof.
  induction sizes as [|w t IH]; intros ax a W H.
  - exists a. cbn. repeat split; auto; apply W.
  - cbn [List.length seq combine fold_left medians_in_turn].
    assert (X : exists c, turn bn (Ok a) (w, ax) = Ok c /\ (if 1 <? w then line_medians bn w ax a c else c = a) /\ wf_nd c /\ nd_shape c = nd_shape a /\
      ((forall ix v, nd_get a ix = Some v -> (0 <= v)%Q) -> forall ix v, nd_get c ix = Some v -> (0 <= v)%Q)).
    { unfold turn. cbn [bind fst snd]. destruct (1 <? w) eqn:Q.
      - destruct (H O w eq_refl ltac:(lia)) as (Od & n & En & Le). rewrite Nat.add_0_r in En.
        destruct (line_step bn w ax a n W En ltac:(lia) Od) as (y & b & Ey & Eb & R). rewrite Ey. cbn [bind]. rewrite Eb. exists b. split; [reflexivity|exact R].
      - exists a. auto. }
    destruct X as (c & Ec & Rc & Wc & Sc & Nc). rewrite Ec.
    destruct (IH (S ax) c Wc) as (b & Eb & Rb & Wb & Sb & Nb).
    { intros k w' Ek Gk. rewrite Sc. replace (S ax + k)%nat with (ax + S k)%nat by lia. apply (H (S k) w' Ek Gk). }
    exists b. split; [exact Eb|]. split; [exists c; auto|]. split; [exact Wb|]. split; [congruence|]. intros N. exact (Nb (Nc N)).
Qed.

(** ** Window lengths *)
Definition idx (dims : list string) (d : string) : nat := match index_of d dims with Some n => n | None => O end.
Lemma fold_put dims (g : string * Z -> Z) l : forall s, NoDup dims -> NoDup (map fst l) -> (forall e, In e l -> In (fst e) dims) ->
  List.length s = List.length dims ->
  let s' := fold_left (fun s e => put s (idx dims (fst e)) (g e)) l s in
  List.length s' = List.length dims /\
  forall ax d, nth_error dims ax = Some d ->
    nth_error s' ax = match assoc d l with Some v => Some (g (d, v)) | None => nth_error s ax end.
Proof.
  induction l as [|[d0 v0] l IH]; intros s N ND H L; cbn [fold_left fst map].
  - split; [exact L|]. intros ax d E. reflexivity.
  - cbn [map fst] in ND. apply NoDup_cons_iff in ND. destruct ND as [ND1 ND2].
    destruct (IH (put s (idx dims d0) (g (d0, v0))) N ND2) as [A B].
    + intros e I. apply H. right. exact I.
    + rewrite put_length. exact L.
    + split; [exact A|]. intros ax d E. rewrite (B ax d E). cbn [assoc]. destruct (String.eqb_spec d d0) as [->|Q].
      * rewrite (proj2 (assoc_None d0 l) ND1). assert (X : idx dims d0 = ax).
        { unfold idx. rewrite (index_of_nth dims ax d0 N E). reflexivity. }
        rewrite X. apply nth_put_same. rewrite L. apply nth_error_Some. congruence.
      * destruct (assoc d l) as [v|]; [reflexivity|]. apply nth_put_other. intros C.
        assert (I : In d0 dims) by (apply (H (d0, v0)); left; reflexivity). apply In_nth_error in I. destruct I as [k K].
        unfold idx in C. rewrite (index_of_nth dims k d0 N K) in C. subst k. congruence.
Qed.
