(** Scanning: the loop. *)
From Verif Require Import Base BaseFacts IoModel IoSpec IoProofs2.
From Coq Require Import Strings.String Strings.Ascii Lia ZArith.
Local Open Scope Z_scope.
Local Open Scope list_scope.

Section Loop.
Context {R : Type} (reads_dirs : Z -> bool) (detect : hints -> item R -> outcome Z) (reader : item R -> outcome Z)
  (scans : Z -> item R -> @answer R) (ext : option string) (timestamp : option Z)
  (detects : forall h i, detect h i = reader i).
Notation scan_loop := (scan_loop reads_dirs detect scans timestamp).
Notation updated_after := (updated_after timestamp).

Definition claimsb (p : string) (m : Z) : bool :=
  match reader (IDir p m) with Fine io => reads_dirs io | Raised _ => false end.
Lemma claimsb_iff p m : claimsb p m = true <-> claims reads_dirs reader p m.
Proof.
  unfold claimsb, claims. destruct (reader (IDir p m)) as [io|e]; split.
  - eauto.
  - intros (io' & E & H). injection E as <-. exact H.
  - discriminate.
  - intros (io' & E & H). discriminate.
Qed.

Definition step (i : item R) : outcome (list string * list R) :=
  match i with
  | IPatch a => Fine ([], [a])
  | _ =>
      match reader i with
      | Raised EUnknownFormat => Fine ([], [])
      | Raised e => Raised e
      | Fine io =>
          if reads_dirs io then
            if negb (updated_after i) then Fine ([], [])
            else match scans io i with
                 | ARows rows => Fine ([], rows)
                 | ACorrupt e | ARaises e => Raised e
                 | AMissing _ => Raised EMissingDependency
                 end
          else match scans io i with
               | ARows rows => Fine ([], rows)
               | ACorrupt _ => Fine ([], [])
               | AMissing p => Fine ([p], [])
               | ARaises e => Raised e
               end
      end
  end.
Definition then_ {A B} (o : outcome A) (f : A -> outcome B) : outcome B :=
  match o with Fine a => f a | Raised e => Raised e end.
Fixpoint process (l : list (item R)) (m : list string) (o : list R) : outcome (list R * list string) :=
  match l with
  | [] => Fine (o, m)
  | i :: l => then_ (step i) (fun x => process l (m ++ fst x) (o ++ snd x))
  end.
Lemma process_app a b m o : process (a ++ b) m o = then_ (process a m o) (fun x => process b (snd x) (fst x)).
Proof.
  revert m o. induction a as [|i a IH]; intros m o; cbn [app process]; auto.
  destruct (step i) as [x|e]; cbn [then_]; auto.
Qed.

Definition hintless (g : @gen R) : Prop := forall h h' m o, scan_loop g h m o = scan_loop g h' m o.
Lemma no_hint g : hintless g.
Proof.
  enough (hintless g /\ match g with GDone => True | GYield _ k => forall b, hintless (k b) end) by tauto.
  induction g as [|v k IH]; [split; auto; intros ? ? ? ?; reflexivity|].
  split; [|intros b; apply IH].
  assert (F : hintless (k false)) by apply IH.
  assert (D : match k true with GDone => True | GYield _ k' => hintless (k' false) end).
  { destruct (IH true) as [_ T]. destruct (k true); auto. }
  intros h h' m o. destruct v as [[p|p t|a|x]|]; cbn [IoModel.scan_loop]; auto; rewrite !detects;
    (destruct (reader _) as [io|[]]; auto; destruct (reads_dirs io);
      [destruct (k true); auto; destruct (negb _); auto; destruct (scans io _); auto|destruct (scans io _); auto]).
Qed.

Notation next m o k := (fun x => scan_loop k (None, None) (m ++ fst x) (o ++ snd x)).
(** An item no directory format takes. *)
Lemma loop_file i k h m o :
  (match i with IPatch _ => True | _ => forall io, reader i = Fine io -> reads_dirs io = false end) ->
  scan_loop (GYield (Some i) k) h m o = then_ (step i) (next m o (k false)).
Proof.
  intros H. destruct i as [p|p t|a|x]; cbn [IoModel.scan_loop step];
    [| |cbn [then_ fst snd]; rewrite app_nil_r; apply no_hint|];
    rewrite detects; (destruct (reader _) as [io|[]]; cbn [then_ fst snd]; rewrite ?app_nil_r; try apply no_hint; try reflexivity;
      rewrite (H io eq_refl); destruct (scans io _); cbn [then_ fst snd]; rewrite ?app_nil_r; try apply no_hint; reflexivity).
Qed.
(** A directory that is claimed. *)
Lemma loop_claimed p t k c h m o : claimsb p t = true ->
  scan_loop (GYield (Some (IDir p t)) (fun skip => if skip then GYield None (fun _ => k) else c)) h m o =
  then_ (step (IDir p t)) (next m o k).
Proof.
  unfold claimsb. intros H. cbn [IoModel.scan_loop step]. rewrite detects.
  destruct (reader (IDir p t)) as [io|e]; [|discriminate]. rewrite H. destruct (negb _); cbn [then_ fst snd].
  - rewrite !app_nil_r. apply no_hint.
  - destruct (scans io (IDir p t)); cbn [then_ fst snd]; rewrite ?app_nil_r; auto. apply no_hint.
Qed.

Fixpoint iter_dir (path : string) (es : list node) (k : @gen R) : @gen R :=
  match es with
  | [] => k
  | e :: es' =>
      match e with
      | NFile name m =>
          if file_ok ext timestamp name m then GYield (Some (IFile (join path name))) (fun _ => iter_dir path es' k) else iter_dir path es' k
      | NDir name _ _ => if hidden name then iter_dir path es' k else iter_fs ext timestamp true (join path name) e (iter_dir path es' k)
      end
  end.
Lemma iter_fs_dir path s m es k :
  iter_fs ext timestamp true path (NDir s m es) k =
  if negb (hidden path) then GYield (Some (IDir path m)) (fun skip => if skip then GYield None (fun _ => k) else iter_dir path es k)
  else iter_dir path es k.
Proof.
  cbn [iter_fs andb].
  assert (E : (fix loop (es : list node) : @gen R :=
          match es with
          | [] => k
          | e :: es' =>
              match e with
              | NFile name m =>
                  if file_ok ext timestamp name m then GYield (Some (IFile (join path name))) (fun _ => loop es') else loop es'
              | NDir name _ _ => if hidden name then loop es' else iter_fs ext timestamp true (join path name) e (loop es')
              end
          end) es = iter_dir path es k).
  { clear. induction es as [|[s m|s m es0] es IH]; auto; cbn [iter_dir]; rewrite <- IH; reflexivity. }
  rewrite !E. reflexivity.
Qed.

Lemma process_next l : forall m o k,
  then_ (process l m o) (fun x => scan_loop k (None, None) (snd x) (fst x)) =
  match l with
  | [] => scan_loop k (None, None) m o
  | i :: l' => then_ (step i) (fun x => then_ (process l' (m ++ fst x) (o ++ snd x)) (fun x => scan_loop k (None, None) (snd x) (fst x)))
  end.
Proof. intros. destruct l as [|i l]; cbn [process then_ fst snd]; auto. destruct (step i); auto. Qed.

Notation items := (items_fs ext timestamp claimsb).
Notation only := (dirs_only reads_dirs reader).
Lemma iter_loop n : forall p k h m o, (forall i, In i (items p n) -> only i) ->
  scan_loop (iter_fs ext timestamp true p n k) h m o =
  then_ (process (items p n) m o) (fun x => scan_loop k (None, None) (snd x) (fst x)).
Proof.
  induction n as [s t|s t es IH] using node_ind'; intros p k h m o O.
  - cbn [iter_fs items_fs]. rewrite loop_file.
    + cbn [process]. destruct (step (IFile p)); reflexivity.
    + intros io E. specialize (O (IFile p) (or_introl eq_refl) io E). destruct (reads_dirs io); auto. destruct O; auto.
  - assert (C : (forall i, In i (items_dir ext timestamp claimsb p es) -> only i) -> forall h m o,
      scan_loop (iter_dir p es k) h m o =
      then_ (process (items_dir ext timestamp claimsb p es) m o) (fun x => scan_loop k (None, None) (snd x) (fst x))).
    { clear O h m o. induction es as [|e es IHe]; intros O h m o; cbn [iter_dir items_dir] in *.
      - cbn. apply no_hint.
      - specialize (IHe (fun e' I => IH e' (or_intror I))). destruct e as [s' t'|s' t' es'].
        + destruct (file_ok ext timestamp s' t'); auto.
          rewrite loop_file.
          * rewrite process_next. destruct (step _) as [x|]; cbn [then_]; auto. apply IHe. intros; apply O; now right.
          * intros io E. specialize (O _ (or_introl eq_refl) io E). destruct (reads_dirs io); auto. destruct O; auto.
        + destruct (hidden s'); auto.
          rewrite (IH _ (or_introl eq_refl)) by (intros; apply O, in_or_app; auto). rewrite process_app.
          destruct (process (items (join p s') _) m o) as [x|]; cbn [then_]; auto. apply IHe. intros; apply O, in_or_app; auto. }
    rewrite iter_fs_dir, items_fs_dir in *. destruct (hidden p) eqn:F; cbn [negb].
    + apply C, O.
    + destruct (claimsb p t) eqn:D.
      * rewrite loop_claimed by exact D. cbn [process]. destruct (step _); reflexivity.
      * rewrite loop_file.
        { rewrite process_next. destruct (step _) as [x|]; cbn [then_]; auto. apply C. intros; apply O; now right. }
        { intros io E. unfold claimsb in D. rewrite E in D. exact D. }
Qed.
Notation itemss := (items_in ext timestamp claimsb).
Lemma inputs_loop ss : forall h m o, (forall i, In i (itemss ss) -> only i) ->
  scan_loop (iter_inputs ext timestamp true ss) h m o = process (itemss ss) m o.
Proof.
  induction ss as [|[p n|p|a|x] ss IH]; intros h m o O; cbn [iter_inputs items_in] in *; auto.
  - rewrite iter_loop by (intros; apply O, in_or_app; auto). rewrite process_app.
    destruct (process _ m o); cbn [then_]; auto. apply IH. intros; apply O, in_or_app; auto.
  - rewrite loop_file.
    + cbn [process]. destruct (step _); cbn [then_]; auto. apply IH. intros; apply O; now right.
    + intros io E. specialize (O _ (or_introl eq_refl) io E). destruct (reads_dirs io); auto. destruct O; auto.
  - rewrite loop_file by exact I. cbn [process]. destruct (step _); cbn [then_]; auto. apply IH. intros; apply O; now right.
  - rewrite loop_file.
    + cbn [process]. destruct (step _); cbn [then_]; auto. apply IH. intros; apply O; now right.
    + intros io E. specialize (O _ (or_introl eq_refl) io E). destruct (reads_dirs io); auto. destruct O; auto.
Qed.

(** ** The steps in terms of the statement *)
Lemma updated_iff (i : item R) : updated_after i = false <-> unchanged timestamp i.
Proof.
  unfold IoModel.updated_after, unchanged. destruct timestamp as [t|], i as [p|p mt|a|x]; cbn; try (split; [discriminate|tauto]);
    try (rewrite orb_true_r; split; [discriminate|tauto]).
  rewrite orb_false_iff, Z.eqb_neq, Z.ltb_ge. tauto.
Qed.
Lemma step_ends i e : step i = Raised e <-> ends reads_dirs reader scans timestamp i e.
Proof.
  assert (G : match reader i with
      | Raised EUnknownFormat => Fine ([], [])
      | Raised e => Raised e
      | Fine io =>
          if reads_dirs io then
            if negb (updated_after i) then Fine ([], [])
            else match scans io i with
                 | ARows rows => Fine ([], rows)
                 | ACorrupt e | ARaises e => Raised e
                 | AMissing _ => Raised EMissingDependency
                 end
          else match scans io i with
               | ARows rows => Fine ([], rows)
               | ACorrupt _ => Fine ([], [])
               | AMissing p => Fine ([p], [])
               | ARaises e => Raised e
               end
      end = @Raised (list string * list R) e <->
      match reader i with
      | Raised e' => e' <> EUnknownFormat /\ e = e'
      | Fine io =>
          if reads_dirs io
          then ~ unchanged timestamp i /\
               match scans io i with
               | ARows _ => False
               | ACorrupt e' | ARaises e' => e = e'
               | AMissing _ => e = EMissingDependency
               end
          else scans io i = ARaises e
      end).
  { destruct (reader i) as [io|e'].
    - destruct (reads_dirs io).
      + destruct (updated_after i) eqn:U; cbn [negb].
        * assert (N : ~ unchanged timestamp i) by (rewrite <- updated_iff; congruence).
          destruct (scans io i); split; try (intros H; injection H as <-; auto); try discriminate;
            intros [_ H]; try contradiction; subst; reflexivity.
        * apply updated_iff in U. split; [discriminate|intros [N _]; contradiction].
      + destruct (scans io i); split; intros H; try discriminate H; congruence.
    - destruct e'; split; intros H; try discriminate H; try (injection H as <-; split; [discriminate|reflexivity]);
        destruct H as [H1 H2]; subst; auto; congruence. }
  destruct i; unfold step, ends; try exact G. split; [discriminate|intros []].
Qed.
Lemma step_gives i m r : step i = Fine (m, r) -> gives reads_dirs reader scans timestamp i r /\ (m <> [] <-> lacks_package reads_dirs reader scans i).
Proof.
  assert (Q : forall P : Prop, ~ P -> (@nil string <> [] <-> P)) by (intros; split; [congruence|contradiction]).
  destruct i as [p|p t|a|x]; unfold step, gives, lacks_package.
  3: { intros E; injection E as <- <-. split; auto. }
  all: match goal with |- context [reader ?j] => set (i := j); destruct (reader i) as [io|e] eqn:Rd end.
  all: try (destruct e; intros E; try discriminate E; injection E as <- <-; split; auto; apply Q; intros (io & pkg & E & _); discriminate).
  all: destruct (reads_dirs io) eqn:D.
  all: try (destruct (updated_after i) eqn:U; cbn [negb];
    [assert (N : ~ unchanged timestamp i) by (rewrite <- updated_iff; congruence)|apply updated_iff in U];
    try (destruct (scans io i) eqn:S); intros E; try discriminate E; injection E as <- <-; (split; [auto|]);
    apply Q; intros (io' & ? & E & D' & _); congruence).
  all: destruct (scans io i) eqn:S; intros E; try discriminate E; injection E as <- <-; (split; [auto|]);
    try (apply Q; intros (io' & ? & E & _ & S'); congruence).
  all: split; [intros _; eauto|intros _; discriminate].
Qed.

Lemma process_fine l : forall m o, (forall i, In i l -> forall e, ~ ends reads_dirs reader scans timestamp i e) ->
  exists rowss ms, Forall2 (gives reads_dirs reader scans timestamp) l rowss /\
    (ms <> [] <-> exists i, In i l /\ lacks_package reads_dirs reader scans i) /\
    process l m o = Fine (o ++ List.concat rowss, m ++ ms).
Proof.
  induction l as [|i l IH]; intros m o N.
  - exists [], []. split; [constructor|]. split; [|cbn; now rewrite !app_nil_r]. split; [congruence|intros (i & [] & _)].
  - cbn [process]. destruct (step i) as [[m1 r1]|e] eqn:S.
    2: { apply step_ends in S. exfalso. eapply N; [now left|exact S]. }
    apply step_gives in S. destruct S as [G L]. cbn [then_ fst snd].
    destruct (IH (m ++ m1) (o ++ r1) (fun j J => N j (or_intror J))) as (rs & ms & F & M & E).
    exists (r1 :: rs), (m1 ++ ms). split; [constructor; auto|]. split; [|rewrite E; cbn [List.concat]; now rewrite !app_assoc].
    split.
    + intros H. destruct m1 as [|x m1].
      * destruct (proj1 M H) as (j & J & K). exists j. split; auto. now right.
      * exists i. split; [now left|]. apply L. discriminate.
    + intros (j & [<-|J] & K).
      * apply L in K. destruct m1; [congruence|discriminate].
      * assert (ms <> []) by (apply M; eauto). destruct m1, ms; try discriminate; congruence.
Qed.
Lemma process_ends pre i post e : (forall j, In j pre -> forall e, ~ ends reads_dirs reader scans timestamp j e) ->
  ends reads_dirs reader scans timestamp i e -> forall m o, process (pre ++ i :: post) m o = Raised e.
Proof.
  intros N E m o. rewrite process_app. destruct (process_fine pre m o N) as (rs & ms & _ & _ & ->).
  cbn [then_ process fst snd]. apply step_ends in E. rewrite E. reflexivity.
Qed.

Notation listed := (listing_in ext timestamp (claims reads_dirs reader)).
Theorem scan_listed ss l : listed ss l -> (forall i, In i l -> only i) ->
  (forall i, In i l -> forall e, ~ ends reads_dirs reader scans timestamp i e) ->
  exists rowss, Forall2 (gives reads_dirs reader scans timestamp) l rowss /\
    ((exists i, In i l /\ lacks_package reads_dirs reader scans i) /\ List.concat rowss = [] ->
      scan reads_dirs detect scans timestamp ext (Again ss) = Raised EMissingDependency) /\
    (~ (exists i, In i l /\ lacks_package reads_dirs reader scans i) \/ List.concat rowss <> [] ->
      scan reads_dirs detect scans timestamp ext (Again ss) = Fine (List.concat rowss)).
Proof.
  intros L O N. apply (listing_in_iff ext timestamp claimsb _ claimsb_iff) in L. subst l.
  destruct (process_fine _ [] [] N) as (rs & ms & F & M & E). exists rs. split; auto.
  unfold scan, after_count. rewrite inputs_loop by exact O. rewrite E. cbn [app]. split.
  - intros [H ->]. apply M in H. destruct ms; [congruence|reflexivity].
  - intros [H|H].
    + destruct ms; [reflexivity|]. exfalso. apply H, M. discriminate.
    + destruct ms; [reflexivity|]. destruct (List.concat rs); [congruence|reflexivity].
Qed.
Theorem scan_error ss pre i post e : listed ss (pre ++ i :: post) -> (forall j, In j (pre ++ i :: post) -> only j) ->
  (forall j, In j pre -> forall e, ~ ends reads_dirs reader scans timestamp j e) ->
  ends reads_dirs reader scans timestamp i e ->
  scan reads_dirs detect scans timestamp ext (Again ss) = Raised e.
Proof.
  intros L O N E. apply (listing_in_iff ext timestamp claimsb _ claimsb_iff) in L.
  unfold scan, after_count. rewrite inputs_loop by (rewrite <- L; exact O). rewrite <- L.
  rewrite (process_ends pre i post e N E). reflexivity.
Qed.
End Loop.
