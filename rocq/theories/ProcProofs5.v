(** Lemmas behind ProcProps.v: pad. *)
From Verif Require Import Base BaseFacts CoordModel CoordSpec CoordProofs CoordProofs2 CoordProofs3
  CoordProofs4 CoordProofs5 NdModel NdSpec NdProofs NdProofs2 FrameModel FrameProofs5 ChunkModel ChunkProofs4 CmModel CmSpec
  CmProofs CmProofs2 CmProofs3 CmProofs4 CmProofs5 CmProofs8 CmProofs10 CmProofs12 CmProofs16 ProcModel ProcSpec ProcProofs ProcProofs2 ProcProofs3 ProcProofs4.
From Coq Require Import Strings.String ZifyBool.
Ltac Zify.zify_post_hook ::= Z.div_mod_to_equations.
Local Open Scope Z_scope.
Local Open Scope list_scope.

Lemma nd_pad_ok {A} (a : nd A) ax x y n fill : wf_nd a -> nth_error (nd_shape a) ax = Some n -> 0 <= x -> 0 <= y ->
  exists b, nd_pad a ax x y fill = Ok b /\ wf_nd b /\ nd_shape b = put (nd_shape a) ax (x + n + y) /\
    forall ix j, inb (nd_shape b) ix -> nth_error ix ax = Some j ->
      nd_get b ix = if (x <=? j) && (j <? x + n) then nd_get a (put ix ax (j - x)) else Some fill.
Proof.
  intros W N X Y. unfold nd_pad. replace ((x <? 0) || (y <? 0)) with false by lia. rewrite N.
  assert (N0 : 0 <= n) by (destruct W as [F _]; rewrite Forall_forall in F; apply F; eapply nth_error_In; eauto).
  assert (AL : (ax < List.length (nd_shape a))%nat) by (apply nth_error_Some; congruence).
  assert (PN : Forall (fun k => 0 <= k) (put (nd_shape a) ax (x + n + y))) by (apply put_nonneg; [apply W|lia]).
  match goal with |- context [nd_build ?s ?g] => set (f := g); destruct (nd_build_total s f PN) as [b B] end.
  - intros ix IB. pose proof (inb_length _ _ IB) as LL. rewrite put_length in LL. unfold f.
    destruct (nth_error ix ax) as [j|] eqn:Ej; [|apply nth_error_None in Ej; lia].
    destruct ((x <=? j) && (j <? x + n)) eqn:C; [|eauto].
    apply nd_get_total; [exact W|]. apply (inb_put _ _ _ _ _ IB n N). lia.
  - rewrite B. destruct (nd_build_spec _ _ _ PN B) as (SB & WB & GB). exists b. split; [reflexivity|]. split; [exact WB|]. split; [exact SB|].
    intros ix j IB Ej. rewrite SB in IB. destruct (GB ix IB) as (v & F & ->). rewrite <- F. unfold f. rewrite Ej. reflexivity.
Qed.

(** Widths by dimension name. *)
Fixpoint before (l : list (string * (Z * Z))) (d : string) : Z :=
  match l with [] => 0 | (d', w) :: t => if String.eqb d d' then fst w else before t d end.
Fixpoint wider (l : list (string * (Z * Z))) (len : string -> Z) (d : string) : Z :=
  match l with [] => len d | (d', w) :: t => if String.eqb d d' then fst w + len d + snd w else wider t len d end.

Lemma before_none l d : ~ In d (map fst l) -> before l d = 0.
Proof.
  induction l as [|[d' w] t IH]; intros H; [reflexivity|]. cbn [before]. destruct (String.eqb_spec d d') as [->|].
  - exfalso; apply H; left; reflexivity.
  - apply IH. intros J; apply H; right; exact J.
Qed.
Lemma wider_none l len d : ~ In d (map fst l) -> wider l len d = len d.
Proof.
  induction l as [|[d' w] t IH]; intros H; [reflexivity|]. cbn [wider]. destruct (String.eqb_spec d d') as [->|].
  - exfalso; apply H; left; reflexivity.
  - apply IH. intros J; apply H; right; exact J.
Qed.
Lemma wider_at l len d v x : ~ In d (map fst l) -> wider l (at_dim len d v) x = if String.eqb x d then v else wider l len x.
Proof.
  intros N. destruct (String.eqb_spec x d) as [->|NE].
  - rewrite wider_none by exact N. unfold at_dim. rewrite String.eqb_refl. reflexivity.
  - clear N. induction l as [|[d' w] t IH]; cbn [wider].
    + unfold at_dim. destruct (String.eqb_spec x d); [contradiction|reflexivity].
    + rewrite IH. unfold at_dim. destruct (String.eqb_spec x d); [contradiction|reflexivity].
Qed.

Lemma inb_map (len pos : string -> Z) ds : (forall d, In d ds -> 0 <= pos d < len d) -> inb (map len ds) (map pos ds).
Proof.
  induction ds as [|d t IH]; intros H; cbn [map]; constructor; [apply H; left; reflexivity|]. apply IH. intros; apply H; right; assumption.
Qed.

Definition pad_all {A} (info : list (string * nat * (Z * Z))) (fill : A) (acc : result (nd A)) : result (nd A) :=
  fold_left (fun acc x => do a <- acc; let '(_, ax, w) := x in nd_pad a ax (fst w) (snd w) fill) info acc.

Lemma pad_fold {A} (fill : A) dims info : NoDup dims -> NoDup (map (fun x => fst (fst x)) info) ->
  (forall d ax w, In (d, ax, w) info -> nth_error dims ax = Some d /\ 0 <= fst w /\ 0 <= snd w) ->
  forall (a : nd A) len, wf_nd a -> nd_shape a = map len dims ->
  let ws := map (fun x => (fst (fst x), snd x)) info in
  exists b, pad_all info fill (Ok a) = Ok b /\ wf_nd b /\ nd_shape b = map (wider ws len) dims /\
    forall pos, (forall d, In d dims -> 0 <= pos d < wider ws len d) ->
      nd_get b (map pos dims) =
        if forallb (fun d => (0 <=? pos d - before ws d) && (pos d - before ws d <? len d)) dims
        then nd_get a (map (fun d => pos d - before ws d) dims) else Some fill.
Proof.
  intros ND. induction info as [|[[d0 ax] [x y]] info IH]; intros NK H a len W S; cbn zeta.
  - exists a. split; [reflexivity|]. split; [exact W|]. split; [exact S|]. intros pos B. cbn [map before] in *.
    assert (forallb (fun d => (0 <=? pos d - 0) && (pos d - 0 <? len d)) dims = true) as ->.
    { apply forallb_forall. intros d J. specialize (B d J). cbn [wider] in B. lia. }
    f_equal. apply map_ext. intros; lia.
  - inversion NK as [|? ? NI NK']; subst. cbn [fst] in NI.
    destruct (H d0 ax (x, y) (or_introl eq_refl)) as (NX & X & Y). cbn [fst snd] in X, Y.
    assert (SX : nth_error (nd_shape a) ax = Some (len d0)) by (rewrite S, nth_error_map, NX; reflexivity).
    destruct (nd_pad_ok a ax x y (len d0) fill W SX X Y) as (a1 & E1 & W1 & S1 & G1).
    assert (S1' : nd_shape a1 = map (at_dim len d0 (x + len d0 + y)) dims).
    { rewrite S1, S. apply put_map_upd; assumption. }
    destruct (IH NK' (fun d ax w J => H d ax w (or_intror J)) a1 (at_dim len d0 (x + len d0 + y)) W1 S1') as (b & Eb & Wb & Sb & Gb).
    set (ws := map (fun x => (fst (fst x), snd x)) info) in *.
    assert (NW : ~ In d0 (map fst ws)) by (unfold ws; rewrite map_map; cbn [fst]; exact NI).
    exists b. cbn [map fst snd]. fold ws. split.
    { unfold pad_all. cbn [fold_left bind fst snd]. rewrite E1. exact Eb. }
    split; [exact Wb|]. split.
    { rewrite Sb. apply map_ext. intros d. rewrite wider_at by exact NW. cbn [wider fst snd]. destruct (String.eqb_spec d d0) as [E|E]; [rewrite E|]; reflexivity. }
    intros pos B. cbn [wider fst snd] in B.
    assert (B' : forall d, In d dims -> 0 <= pos d < wider ws (at_dim len d0 (x + len d0 + y)) d).
    { intros d J. specialize (B d J). rewrite wider_at by exact NW. destruct (String.eqb_spec d d0) as [E|E]; [rewrite E in *|]; exact B. }
    rewrite (Gb pos B').
    assert (J0 : In d0 dims) by (eapply nth_error_In; eauto).
    set (q := fun d => pos d - before ws d).
    assert (Q0 : q d0 = pos d0) by (unfold q; rewrite before_none by exact NW; lia).
    cbn [before fst].
    destruct (forallb (fun d => (0 <=? pos d - before ws d) && (pos d - before ws d <? at_dim len d0 (x + len d0 + y) d)) dims) eqn:C1.
    + rewrite forallb_forall in C1.
      assert (IB : inb (nd_shape a1) (map q dims)).
      { rewrite S1'. apply inb_map. intros d J. specialize (C1 d J). unfold q. lia. }
      rewrite (G1 (map q dims) (q d0) IB) by (rewrite nth_error_map, NX; reflexivity). rewrite Q0.
      assert (PE : put (map q dims) ax (pos d0 - x) = map (fun d => pos d - (if String.eqb d d0 then x else before ws d)) dims).
      { rewrite (put_map_upd q d0 (pos d0 - x) dims ax ND NX). apply map_ext. intros d.
        destruct (String.eqb_spec d d0) as [E|E]; [rewrite E|]; reflexivity. }
      rewrite PE.
      destruct ((x <=? pos d0) && (pos d0 <? x + len d0)) eqn:C2.
      * assert (forallb (fun d => (0 <=? pos d - (if String.eqb d d0 then x else before ws d)) && (pos d - (if String.eqb d d0 then x else before ws d) <? len d)) dims = true) as ->; [|reflexivity].
        apply forallb_forall. intros d J. specialize (C1 d J). unfold at_dim in C1. destruct (String.eqb_spec d d0) as [E|E]; [rewrite E in *|]; lia.
      * match goal with |- _ = if ?c then _ else _ => destruct c eqn:C3; [|reflexivity] end.
        rewrite forallb_forall in C3. specialize (C3 d0 J0). cbv beta in C3. rewrite String.eqb_refl in C3. lia.
    + match goal with |- _ = if ?c then _ else _ => destruct c eqn:C3; [|reflexivity] end. exfalso.
      rewrite forallb_forall in C3. match type of C1 with forallb ?f dims = false => assert (forallb f dims = true); [|congruence] end.
      apply forallb_forall. intros d J. specialize (C3 d J). specialize (B d J). unfold at_dim in *.
      destruct (String.eqb_spec d d0) as [E|E]; [rewrite E in *|exact C3]. rewrite before_none by exact NW. lia.
Qed.

Lemma sample_count_exact r d k : wf_range r -> 0 < r_step r -> rounds_up (r_step r) d k ->
  sample_count r d false = Ok k.
Proof.
  intros W S (D & L & U). destruct (sample_count_spec r d false W S D) as (n & N & ->). cbn [andb].
  f_equal. nia.
Qed.

Lemma pad_tuple_ok fast samples r v w : wf_range r -> 0 < r_step r -> pad_width fast samples r v w ->
  pad_tuple fast v samples (CRange r) = Ok w.
Proof.
  intros W S H. unfold pad_tuple, pad_width in *. destruct v as [a b| |].
  - destruct samples; [destruct H as [-> _]; reflexivity|]. destruct H as [A B].
    rewrite (sample_count_exact r a _ W S A). cbn [bind]. rewrite (sample_count_exact r b _ W S B). cbn [bind].
    destruct w; reflexivity.
  - subst w. reflexivity.
  - subst w. reflexivity.
Qed.

Definition longer (r : crange) (w : Z * Z) : crange :=
  mkRange (r_kind r) (r_start r - fst w * r_step r) (r_start r - fst w * r_step r + r_step r * (fst w + r_len r + snd w))
    (r_step r) (fst w + r_len r + snd w).

Lemma pad_coord_ok r w : wf_range r -> 0 < r_step r -> 0 <= fst w -> 0 <= snd w ->
  pad_coord (CRange r) w true = Ok (CRange (longer r w)).
Proof.
  intros (S & L & E) P A B. unfold pad_coord.
  replace (r_min r - fst w * r_step r) with (r_start r - fst w * r_step r) by (unfold r_min; nia).
  replace (r_max r + (snd w + 1) * r_step r) with (r_start r - fst w * r_step r + r_step r * (fst w + r_len r + snd w)) by (unfold r_max; nia).
  rewrite mk_range_exact by lia. reflexivity.
Qed.

Lemma longer_wf r w : wf_range r -> 0 <= fst w -> 0 <= snd w -> wf_range (longer r w).
Proof. intros (S & L & E) A B. unfold longer, wf_range. cbn [r_step r_len r_stop r_start]. split; [exact S|]. split; lia. Qed.

Lemma axis_of_ok cm d : In d (cm_dims cm) -> exists i, axis_of cm d = Ok i /\ nth_error (cm_dims cm) i = Some d.
Proof.
  intros I. destruct (axis_of cm d) as [i|] eqn:E.
  - exists i. split; [reflexivity|apply axis_of_some; exact E].
  - exfalso. unfold axis_of in E. destruct (index_of d (cm_dims cm)) eqn:X; [discriminate|].
    clear E. induction (cm_dims cm) as [|y t IH]; [destruct I|]. cbn [index_of] in X.
    destruct (String.eqb_spec d y) as [->|N]; [discriminate|]. destruct I as [->|I]; [contradiction|].
    destruct (index_of d t); [discriminate|]. apply IH; auto.
Qed.

Lemma assoc_mem {A} k (v : A) l : assoc k l = Some v -> In (k, v) l.
Proof.
  induction l as [|[k' v'] t IH]; cbn [assoc]; [discriminate|]. destruct (String.eqb_spec k k') as [->|]; [intros [= <-]; left; reflexivity|].
  intros H; right; auto.
Qed.

Lemma map_result_exists {A B} (f : A -> result B) (P : A -> B -> Prop) l :
  (forall x, In x l -> exists y, f x = Ok y /\ P x y) -> exists ys, map_result f l = Ok ys /\ Forall2 P l ys.
Proof.
  induction l as [|x t IH]; intros H; [exists []; split; [reflexivity|constructor]|].
  destruct (H x (or_introl eq_refl)) as (y & E & Py). destruct IH as (ys & Es & F); [intros; apply H; right; assumption|].
  exists (y :: ys). cbn [map_result]. rewrite E. cbn [bind]. rewrite Es. split; [reflexivity|constructor; assumption].
Qed.

Section pad.
Context {A : Type} (p : patch A) (fast : Z -> Z) (samples : bool) (kw : list (string * padval)) (w : string -> option (Z * Z)) (fill : A).
Hypothesis WP : wf_patch p.
Hypothesis PN : plain_names (p_cm p).
Hypothesis FAST : forall n, 1 <= n -> n <= fast n.
Hypothesis NK : NoDup (map fst kw).
Hypothesis KW : kw <> [].
Hypothesis ASK : pad_ask p fast samples kw w.

Lemma ask_width d x : w d = Some x -> exists v r, In (d, v) kw /\ assoc d kw = Some v /\ In d (cm_dims (p_cm p)) /\
  assoc d (cm_coords (p_cm p)) = Some (M1 (CRange r)) /\ wf_range r /\ 0 < r_step r /\ pad_width fast samples r v x /\ 0 <= fst x /\ 0 <= snd x.
Proof.
  intros E. pose proof (ASK d) as H. destruct (assoc d kw) as [v|] eqn:V; [|congruence].
  destruct H as (I & r & y & C & S & PW & W'). assert (y = x) by congruence. subst y. exists v, r.
  pose proof (wf_vals _ (wp_cm _ WP) _ _ C) as WV. cbn in WV. pose proof WV as (_ & L & _).
  split; [apply assoc_mem; exact V|]. split; [reflexivity|]. split; [exact I|]. split; [exact C|]. split; [exact WV|].
  split; [exact S|]. split; [exact PW|]. clear V. split.
  - unfold pad_width in PW. destruct v; [destruct samples|..].
    + destruct PW as (-> & ? & ?). assumption.
    + destruct PW as ((? & ?) & _). nia.
    + subst x. cbn. lia.
    + subst x. cbn. lia.
  - unfold pad_width in PW. destruct v; [destruct samples|..].
    + destruct PW as (-> & ? & ?). assumption.
    + destruct PW as (_ & (? & ?)). nia.
    + subst x. cbn. pose proof (FAST (r_len r) L). lia.
    + subst x. cbn [snd]. pose proof (FAST (2 * r_len r - 1) ltac:(lia)). lia.
Qed.

Definition pad_newf (d : string) : option mcoord :=
  match w d, assoc d (cm_coords (p_cm p)) with
  | Some x, Some (M1 (CRange r)) => Some (M1 (CRange (longer r x)))
  | _, _ => None
  end.

Lemma pad_info : exists info, map_result (fun e : string * padval =>
          do ax <- axis_of (p_cm p) (fst e);
          match assoc (fst e) (cm_coords (p_cm p)) with
          | Some (M1 c) =>
              if negb samples && negb (c_evenly c) then Err CoordError
              else
                do w <- pad_tuple fast (snd e) samples c;
                do c' <- pad_coord c w true;
                Ok (fst e, ax, w, c')
          | _ => Err CoordError
          end) kw = Ok info /\
  Forall2 (fun e (i : string * nat * (Z * Z) * coord) => let '(d, ax, x, c') := i in
     d = fst e /\ nth_error (cm_dims (p_cm p)) ax = Some d /\ w d = Some x /\ pad_newf d = Some (M1 c')) kw info.
Proof.
  apply map_result_exists. intros [d v] I. cbn [fst snd].
  pose proof (ASK d) as H. assert (V : assoc d kw = Some v) by (apply in_assoc; assumption). rewrite V in H.
  destruct H as (J & r & x & C & S & PW & Wd). destruct (axis_of_ok _ _ J) as (ax & EA & NA). rewrite EA. cbn [bind]. rewrite C.
  destruct (ask_width d x Wd) as (v' & r' & _ & V' & _ & C' & WR & _ & _ & X0 & X1).
  assert (r' = r) by congruence. subst r'.
  replace (negb samples && negb (c_evenly (CRange r))) with false by (cbn; destruct samples; reflexivity).
  rewrite (pad_tuple_ok fast samples r v x WR S PW). cbn [bind]. rewrite (pad_coord_ok r x WR S X0 X1). cbn [bind].
  eexists. split; [reflexivity|]. repeat split; auto. unfold pad_newf. rewrite Wd, C. reflexivity.
Qed.

Lemma pad_newf_some d m : pad_newf d = Some m -> exists r x, w d = Some x /\ assoc d (cm_coords (p_cm p)) = Some (M1 (CRange r)) /\
  m = M1 (CRange (longer r x)) /\ wf_range (longer r x) /\ In d (cm_dims (p_cm p)) /\ 0 <= fst x /\ 0 <= snd x.
Proof.
  unfold pad_newf. destruct (w d) as [x|] eqn:Wd; [|discriminate].
  destruct (ask_width d x Wd) as (v & r & _ & V & I & C & WR & S & _ & X0 & X1). rewrite C. intros [= <-].
  exists r, x. repeat split; auto; try apply longer_wf; auto.
Qed.
Lemma pad_newf_w d x : w d = Some x -> exists r, assoc d (cm_coords (p_cm p)) = Some (M1 (CRange r)) /\ pad_newf d = Some (M1 (CRange (longer r x))).
Proof.
  intros Wd. destruct (ask_width d x Wd) as (v & r & _ & V & I & C & _). exists r. split; [exact C|].
  unfold pad_newf. rewrite Wd, C. reflexivity.
Qed.
Lemma recf_range r : wf_range r -> recf (M1 (CRange r)) = M1 (CRange r).
Proof. intros _. reflexivity. Qed.

Lemma info_facts info : Forall2 (fun e (i : string * nat * (Z * Z) * coord) => let '(d, ax, x, c') := i in
     d = fst e /\ nth_error (cm_dims (p_cm p)) ax = Some d /\ w d = Some x /\ pad_newf d = Some (M1 c')) kw info ->
  let ws := map (fun x => (fst (fst x), snd x)) (map fst info) in
  map fst ws = map fst kw /\ (forall d, before ws d = match w d with Some x => fst x | None => 0 end) /\
  (forall d len, wider ws len d = match w d with Some x => fst x + len d + snd x | None => len d end) /\
  gives (p_cm p) (map (fun x : string * nat * (Z * Z) * coord => let '(d, _, _, c') := x in (d, KSimple (VCoord (M1 c')))) info) pad_newf.
Proof.
  intros F ws.
  assert (K1 : map fst ws = map fst kw).
  { unfold ws. clear - F. induction F as [|e [[[d ax] x] c'] l l' (E & _) F IH]; cbn [map fst snd]; [reflexivity|]. rewrite E, IH. reflexivity. }
  assert (G : forall d, assoc d ws = w d).
  { intros d. pose proof (ASK d) as H. destruct (assoc d kw) as [v|] eqn:V.
    - destruct H as (_ & r & x & _ & _ & _ & Wd). rewrite Wd. apply in_assoc; [rewrite K1; exact NK|].
      apply assoc_mem in V. unfold ws. clear - F V Wd. induction F as [|e [[[d' ax] y] c'] l l' (E & _ & Wy & _) F IH]; [destruct V|].
      cbn [map fst snd]. destruct V as [->|V]; [left; cbn [fst] in E; congruence|right; auto].
    - rewrite H. destruct (assoc d ws) as [x|] eqn:X; [|reflexivity]. exfalso.
      assert (In d (map fst ws)) as J by (apply assoc_In; eauto). rewrite K1 in J. apply assoc_In in J. destruct J; congruence. }
  split; [exact K1|]. split; [|split].
  - intros d. rewrite <- G. clear. induction ws as [|[d' x] t IH]; [reflexivity|]. cbn [before assoc].
    destruct (String.eqb d d'); [reflexivity|exact IH].
  - intros d len. rewrite <- G. clear. induction ws as [|[d' x] t IH]; [reflexivity|]. cbn [wider assoc].
    destruct (String.eqb d d'); [reflexivity|exact IH].
  - assert (K2 : map fst (map (fun x : string * nat * (Z * Z) * coord => let '(d, _, _, c') := x in (d, KSimple (VCoord (M1 c')))) info) = map fst kw).
    { clear - F. induction F as [|e [[[d ax] x] c'] l l' (E & _) F IH]; cbn [map fst snd]; [reflexivity|]. rewrite E, IH. reflexivity. }
    split; [rewrite K2; exact NK|]. intros n.
    destruct (assoc n (map (fun x : string * nat * (Z * Z) * coord => let '(d, _, _, c') := x in (d, KSimple (VCoord (M1 c')))) info)) as [k|] eqn:X.
    + apply assoc_mem in X. apply in_map_iff in X. destruct X as ([[[d ax] x] c'] & Q & J). injection Q as -> <-.
      assert (PF : pad_newf n = Some (M1 c')).
      { clear - F J. induction F as [|e i l l' H F IH]; [destruct J|]. destruct J as [->|J]; [apply H|auto]. }
      destruct (pad_newf_some _ _ PF) as (r & y & Wd & C & Em & WR & I & _ & _).
      destruct (wf_dim_coord _ n (wp_cm _ WP) I) as (c0 & _ & _ & D0).
      exists (M1 c'), [n]. repeat split; auto. rewrite Em. exact WR.
    + unfold pad_newf. destruct (w n) as [x|] eqn:Wn; [|reflexivity]. exfalso.
      destruct (ask_width n x Wn) as (v & _ & J & _). apply (in_map fst) in J. cbn [fst] in J. rewrite <- K2 in J.
      apply assoc_In in J. destruct J; congruence.
Qed.

Theorem pt_pad_ok : exists p', pt_pad fast p fill true samples kw = Ok p' /\ padded p p' fill w.
Proof.
  destruct pad_info as (info & EI & F). pose proof (wp_cm _ WP) as W.
  destruct (info_facts info F) as (K1 & KB & KWd & GV). set (ws := map (fun x => (fst (fst x), snd x)) (map fst info)) in *.
  (* coordinates *)
  destruct (cm_update_sub (p_cm p) _ pad_newf W PN GV) as (cm' & EU & W' & D' & UN & UR & UK).
  { intros d m _ E. destruct (pad_newf_some _ _ E) as (r & x & _ & _ & -> & _). eauto. }
  { intros n m ds E EDm NE. destruct (pad_newf_some _ _ E) as (r & x & Wd & C & -> & WR & I & _ & _).
    destruct (wf_dim_coord _ n W I) as (c0 & _ & _ & D0). rewrite D0 in EDm. injection EDm as <-.
    cbn [m_shape]. constructor; [|constructor]. unfold latest. rewrite E. eauto. }
  (* lengths *)
  set (len := fun d => match assoc d (cm_coords (p_cm p)) with Some (M1 c) => c_len c | _ => 0 end).
  assert (LEN : forall d, In d (cm_dims (p_cm p)) -> dim_len (p_cm p) d (len d)).
  { intros d I. destruct (wf_dim_coord _ d W I) as (c0 & C & _). exists c0. unfold len. rewrite C. auto. }
  assert (SH : nd_shape (p_data p) = map len (cm_dims (p_cm p))).
  { pose proof (wp_shape _ WP) as FS. unfold len. clear - FS. induction FS as [|d n l l' (c & C & L) FS IH]; [reflexivity|].
    cbn [map]. rewrite C, L, IH. reflexivity. }
  (* data *)
  destruct (pad_fold fill (cm_dims (p_cm p)) (map fst info) (wf_dims _ W)) with (a := p_data p) (len := len) as (b & EB & WB & SB & GB).
  { assert (map (fun x : string * nat * (Z * Z) => fst (fst x)) (map fst info) = map fst ws) as ->.
    { unfold ws. rewrite !map_map. reflexivity. } rewrite K1. exact NK. }
  { intros d ax x J. apply in_map_iff in J. destruct J as ([[[d' ax'] x'] c'] & Q & J). injection Q as -> -> ->.
    assert (nth_error (cm_dims (p_cm p)) ax = Some d /\ w d = Some x) as [NX Wd].
    { clear - F J. induction F as [|e i l l' H F IH]; [destruct J|]. destruct J as [->|J]; [split; apply H|auto]. }
    destruct (ask_width d x Wd) as (_ & _ & _ & _ & _ & _ & _ & _ & _ & X0 & X1). auto. }
  { apply (wp_nd _ WP). } { exact SH. }
  fold ws in SB, GB.
  assert (LEN' : forall d, In d (cm_dims (p_cm p)) -> dim_len cm' d (wider ws len d)).
  { intros d I. rewrite KWd. destruct (wf_dim_coord _ d W I) as (c0 & C & _ & D0). destruct (w d) as [x|] eqn:Wd.
    - destruct (pad_newf_w d x Wd) as (r & C' & E). destruct (UN d _ E) as [E' _]. exists (CRange (longer r x)).
      destruct (pad_newf_some _ _ E) as (r1 & x1 & _ & _ & _ & WR & _).
      split; [exact E'|]. unfold len. rewrite C'. reflexivity.
    - assert (NF : pad_newf d = None) by (unfold pad_newf; rewrite Wd; reflexivity).
      destruct (UK d NF) as [E' _].
      { intros (ds & d1 & c1 & c2 & ED1 & I1 & N1 & _). rewrite D0 in ED1. injection ED1 as <-. destruct I1 as [<-|[]]. congruence. }
      destruct (recf_M1 c0 (wf_okc _ (wf_vals _ W _ _ C))) as (c2 & Q2 & L2 & _). exists c2. rewrite E', C. cbn [option_map].
      rewrite Q2. split; [reflexivity|]. unfold len. rewrite C. exact L2. }
  destruct (new_patch_ok cm' b W' WB) as [NP WP'].
  { rewrite D'. apply (wp_some _ WP). }
  { rewrite D', SB. clear - LEN'. induction (cm_dims (p_cm p)) as [|d t IH]; cbn [map]; constructor.
    - apply LEN'. left. reflexivity.
    - apply IH. intros; apply LEN'; right; assumption. }
  exists (mkPatch cm' b). split.
  - unfold pt_pad. destruct (filter (fun e => mem (fst e) (cm_dims (p_cm p))) kw) as [|e0 t0] eqn:FL.
    { exfalso. destruct kw as [|[d v] t] eqn:KE; [contradiction|]. pose proof (ASK d) as H. cbn [assoc] in H. rewrite String.eqb_refl in H.
      destruct H as (I & _). cbn [filter fst] in FL. apply mem_In' in I. rewrite I in FL. discriminate. }
    assert (forallb (fun e => mem (fst e) (cm_dims (p_cm p))) kw = true) as ->.
    { apply forallb_forall. intros [d v] J. pose proof (ASK d) as H. rewrite (in_assoc d v kw NK J) in H. apply mem_In'. apply H. }
    cbn [negb]. rewrite EI. cbn [bind].
    assert (EB' : fold_left (fun acc x => do a <- acc; let '(_, ax, w0, _) := x in nd_pad a ax (fst w0) (snd w0) fill) info (Ok (p_data p)) = Ok b).
    { rewrite <- EB. unfold pad_all. clear. generalize (Ok (p_data p)). induction info as [|[[[d ax] x] c'] t IH]; intros z; [reflexivity|].
      cbn [map fst fold_left]. apply IH. }
    rewrite EB'. cbn [bind]. rewrite EU. cbn [bind]. exact NP.
  - split; cbn [p_cm p_data].
    + exact WP'.
    + exact D'.
    + intros d x y Wd. destruct (pad_newf_w d _ Wd) as (r & C & E). destruct (UN d _ E) as [E' _].
      destruct (pad_newf_some _ _ E) as (r1 & x1 & Wd1 & C1 & _ & WR & _).
      assert (r1 = r) by congruence. assert (x1 = (x, y)) by congruence. subst r1 x1.
      exists r, (longer r (x, y)). repeat split; auto; try apply WR.
    + intros n m Wn Em. assert (NF : pad_newf n = None) by (unfold pad_newf; rewrite Wn; reflexivity).
      assert (KEPT : ~ resized (p_cm p) pad_newf n -> match assoc n (cm_coords cm') with
        | Some m' => carried m m' (full (m_shape m)) /\ assoc n (cm_dmap cm') = assoc n (cm_dmap (p_cm p)) /\ (settled m -> m' = m)
        | None => exists d a b, In d (dims_of (p_cm p) n) /\ w d = Some (a, b) /\ a + b <> 0 end).
      { intros NR. destruct (UK n NF NR) as [E1 E2]. rewrite E1, Em. cbn [option_map]. split; [|split; [exact E2|]].
        - apply carried_recf; [apply wf_okm, (wf_vals _ W _ _ Em)|]. apply carried_refl, (wf_vals _ W _ _ Em).
        - intros ST. unfold recf. rewrite ST. reflexivity. }
      destruct (existsb (fun d => match w d with Some x => negb (fst x + snd x =? 0) | None => false end) (dims_of (p_cm p) n)) eqn:EX.
      * apply existsb_exists in EX. destruct EX as (d & J & X). destruct (w d) as [[x y]|] eqn:Wd; [|discriminate]. cbn [fst snd] in X.
        destruct (pad_newf_w d _ Wd) as (r & C & E).
        assert (RS : resized (p_cm p) pad_newf n).
        { unfold dims_of in J. destruct (assoc n (cm_dmap (p_cm p))) as [ds|] eqn:Dn; [|destruct J].
          exists ds, d, (CRange r), (CRange (longer r (x, y))). repeat split; auto. cbn [c_len r_len longer fst snd]. lia. }
        destruct (UR n NF RS) as [E1 _]. rewrite E1. exists d, x, y. repeat split; auto. lia.
      * apply KEPT. intros (ds & d & c1 & c2 & Dn & J & E & C & NL).
        destruct (pad_newf_some _ _ E) as (r & x & Wd & C1 & Q & _). assert (c1 = CRange r) by congruence.
        assert (c2 = CRange (longer r x)) by congruence. subst c1 c2. cbn [c_len r_len longer] in NL.
        assert (existsb (fun d => match w d with Some x => negb (fst x + snd x =? 0) | None => false end) (dims_of (p_cm p) n) = true); [|congruence].
        apply existsb_exists. exists d. unfold dims_of. rewrite Dn. split; [exact J|]. rewrite Wd. lia.
    + intros n En. assert (Wn : w n = None).
      { destruct (w n) as [x|] eqn:Wn; [|reflexivity]. destruct (pad_newf_w n x Wn) as (r & C & _). congruence. }
      assert (NF : pad_newf n = None) by (unfold pad_newf; rewrite Wn; reflexivity).
      destruct (UK n NF) as [E1 _]; [|rewrite E1, En; reflexivity].
      intros (ds & d & c1 & c2 & Dn & _). destruct (con_coord _ (wf_con _ W) n ds Dn) as (m & Em & _). congruence.
    + intros pos IP. unfold data_at. cbn [p_cm p_data]. rewrite D'.
      assert (PB : forall d, In d (cm_dims (p_cm p)) -> 0 <= pos d < wider ws len d).
      { intros d I. destruct (IP d) as (k & (c & C & L) & R); [cbn [p_cm]; rewrite D'; exact I|].
        destruct (LEN' d I) as (c' & C' & L'). cbn [p_cm] in C. assert (c' = c) by congruence. subst c'. lia. }
      rewrite (GB pos PB).
      assert (UP : map (fun d => pos d - before ws d) (cm_dims (p_cm p)) = map (unpad w pos) (cm_dims (p_cm p))).
      { apply map_ext. intros d. rewrite KB. unfold unpad. destruct (w d) as [[x y]|]; cbn [fst]; lia. }
      rewrite UP.
      assert (BU : forall d, pos d - before ws d = unpad w pos d).
      { intros d. rewrite KB. unfold unpad. destruct (w d) as [[x y]|]; cbn [fst]; lia. }
      match goal with |- context [if ?c then _ else _] => destruct c eqn:C end.
      * split; [reflexivity|]. intros N. exfalso; apply N. intros d I. exists (len d). split; [apply LEN; exact I|].
        rewrite forallb_forall in C. specialize (C d I). rewrite <- BU. lia.
      * split; [|reflexivity]. intros H. exfalso.
        match type of C with ?x = false => assert (x = true); [|congruence] end. apply forallb_forall. intros d I. rewrite BU.
        destruct (H d I) as (k & (c & C1 & L) & R). unfold len. rewrite C1, L. lia.
Qed.
End pad.
