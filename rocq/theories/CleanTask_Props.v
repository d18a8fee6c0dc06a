(** C104: requests to clean. *)
From Verif Require Import Common CleanTask_Model.
From Coq Require Import Permutation.

(** * Specification *)

Definition requests (es : list event) : list Z := flat_map (fun e => match e with Request i => [i] | _ => [] end) es.
Definition pass_event (e : event) : bool := match e with Start | Ends _ => true | _ => false end.
(** in [es], a whole successful pass began after the request [i] *)
Definition pass_after (i : Z) (es : list event) : Prop :=
  exists a b c d, es = a ++ Request i :: b ++ Start :: c ++ Ends true :: d /\ existsb pass_event c = false.
Definition no_failure (es : list event) : Prop := ~ In (Ends false) es.
(** what the task does by itself *)
Definition of_task (e : event) : Prop := e = Start \/ e = Ends true \/ e = Exit.

(** * Proofs *)

Lemma run_app a b : forall s, run s (a ++ b) = match run s a with Some s' => run s' b | None => None end.
Proof. induction a as [|e a IH]; intros s; [reflexivity|]. cbn [run app]. destruct (step s e); [apply IH|reflexivity]. Qed.
Lemma requests_app a b : requests (a ++ b) = requests a ++ requests b.
Proof. unfold requests. apply flat_map_app. Qed.
Lemma run_snoc_inv s es e s' : run s (es ++ [e]) = Some s' -> exists s1, run s es = Some s1 /\ step s1 e = Some s'.
Proof. rewrite run_app. destruct (run s es) as [s1|]; [|discriminate]. cbn [run]. destruct (step s1 e) as [s2|] eqn:E; [|discriminate]. intros R. injection R as <-. eauto. Qed.

Lemma pass_after_app i es e : pass_after i es -> pass_after i (es ++ [e]).
Proof. intros (a & b & c & d & -> & H). exists a, b, c, (d ++ [e]). split; [|exact H]. now rewrite <- !app_assoc; cbn [app]; rewrite <- !app_assoc; cbn [app]; rewrite <- !app_assoc. Qed.

Definition begun (i : Z) (es : list event) : Prop := exists a b c, es = a ++ Request i :: b ++ Start :: c /\ existsb pass_event c = false.
Lemma begun_app i es e : begun i es -> pass_event e = false -> begun i (es ++ [e]).
Proof.
  intros (a & b & c & -> & H) P. exists a, b, (c ++ [e]). split; [now rewrite <- !app_assoc; cbn [app]; rewrite <- !app_assoc|].
  rewrite existsb_app, H. cbn. now rewrite P.
Qed.
Definition inv (es : list event) (s : st) : Prop :=
  (forall i, In i (queue s) -> In (Request i) es) /\ (forall i, cur s = Some i -> begun i es) /\ (forall i, In (i, Cleaned) (answers s) -> pass_after i es).
Lemma inv_run es : forall s, run fresh es = Some s -> inv es s.
Proof.
  induction es as [|e es IH] using rev_ind; intros s R.
  - injection R as <-. split; [intros i []|]. split; [discriminate|intros i []].
  - apply run_snoc_inv in R. destruct R as (s1 & R & E). specialize (IH s1 R). destruct IH as (Q & C & A). destruct s1 as [q c j o ans]. cbn [queue cur job sender answers] in *.
    assert (A' : forall i, In (i, Cleaned) ans -> pass_after i (es ++ [e])) by (intros i H; apply pass_after_app; auto).
    destruct e as [i| |ok| |]; cbn [step queue cur job sender answers] in E.
    + destruct o; [|discriminate E]. destruct j; injection E as <-; (split; [|split]); cbn [queue cur answers].
      * intros k H. apply in_app_or in H. apply in_or_app. destruct H as [H|[->|[]]]; [left; auto|right; now left].
      * intros k H. apply begun_app; auto.
      * exact A'.
      * intros k H. apply in_or_app. left. auto.
      * intros k H. apply begun_app; auto.
      * intros k H. apply in_app_or in H. destruct H as [H|[H|[]]]; [auto|discriminate H].
      * intros k H. apply in_or_app. left. auto.
      * intros k H. apply begun_app; auto.
      * intros k H. apply in_app_or in H. destruct H as [H|[H|[]]]; [auto|discriminate H].
    + destruct j, c, q as [|i q]; try discriminate E. injection E as <-. split; [|split]; cbn [queue cur answers].
      * intros k H. apply in_or_app. left. apply Q. now right.
      * intros k H. injection H as <-. specialize (Q i (or_introl eq_refl)). apply in_split in Q. destruct Q as (a & b & ->). exists a, b, []. split; [now rewrite <- app_assoc|reflexivity].
      * exact A'.
    + destruct j, c as [i|]; try discriminate E. destruct ok; injection E as <-; (split; [|split]); cbn [queue cur answers]; try discriminate; try (intros k []; fail).
      * intros k H. apply in_or_app. left. auto.
      * intros k H. apply in_app_or in H. destruct H as [H|[H|[]]]; [auto|]. injection H as <-. destruct (C i eq_refl) as (a & b & c & -> & N). exists a, b, c, []. split; [|exact N].
        now rewrite <- !app_assoc; cbn [app]; rewrite <- !app_assoc.
      * intros k H. apply in_app_or in H. destruct H as [H|H]; [auto|]. change ((i, Canceled) = (k, Cleaned) \/ In (k, Cleaned) (map (fun j => (j, Canceled)) q)) in H.
        destruct H as [H|H]; [discriminate H|]. apply in_map_iff in H. destruct H as (x & H & _). discriminate H.
    + destruct o; [|discriminate E]. injection E as <-. split; [|split]; cbn [queue cur answers]; [intros k H; apply in_or_app; left; auto|intros k H; apply begun_app; auto|exact A'].
    + destruct j, c, q, o; try discriminate E. injection E as <-. split; [|split]; cbn [queue cur answers]; [intros k []|discriminate|exact A'].
Qed.

Definition now (s : st) : list Z := match cur s with Some i => [i] | None => [] end.
Lemma order es : forall s, run fresh es = Some s -> no_failure es ->
  requests es = map fst (answers s) ++ now s ++ queue s /\ Forall (fun x => snd x = Cleaned) (answers s) /\ job s <> Crashed /\ (job s = Finished -> now s ++ queue s = []) /\
  (sender s = false <-> In Drop es) /\ (job s = Finished -> sender s = false).
Proof.
  induction es as [|e es IH] using rev_ind; intros s R N.
  - injection R as <-. split; [reflexivity|]. split; [constructor|]. split; [discriminate|]. split; [discriminate|]. split; [|discriminate]. split; [discriminate|intros []].
  - apply run_snoc_inv in R. destruct R as (s1 & R & E). assert (N1 : no_failure es) by (intros H; apply N, in_or_app; now left). assert (Ne : e <> Ends false) by (intros ->; apply N, in_or_app; right; now left).
    specialize (IH s1 R N1). destruct IH as (I1 & I2 & I3 & I4 & I5 & I6). rewrite requests_app. destruct s1 as [q c j o ans]. unfold now in *. cbn [queue cur job sender answers] in *.
    assert (D : e <> Drop -> (In Drop (es ++ [e]) <-> In Drop es)) by (intros Hn; rewrite in_app_iff; cbn; intuition congruence).
    destruct e as [i| |ok| |]; cbn [step queue cur job sender answers requests flat_map] in *.
    + destruct o; [|discriminate E]. destruct j; [|exfalso; specialize (I6 eq_refl); discriminate I6|congruence]. injection E as <-. cbn [queue cur job sender answers].
      split; [rewrite I1; rewrite <- !app_assoc; reflexivity|]. split; [exact I2|]. split; [discriminate|]. split; [discriminate|]. split; [|discriminate]. rewrite D by discriminate. exact I5.
    + destruct j, c, q as [|i q]; try discriminate E. injection E as <-. cbn [queue cur job sender answers]. split; [rewrite I1, app_nil_r; reflexivity|]. split; [exact I2|]. split; [discriminate|]. split; [discriminate|]. split; [|discriminate]. rewrite D by discriminate. exact I5.
    + destruct j, c as [i|]; try discriminate E. destruct ok; [|congruence]. injection E as <-. cbn [queue cur job sender answers].
      split; [rewrite I1, app_nil_r, map_app, <- app_assoc; reflexivity|]. split; [apply Forall_app; split; [exact I2|constructor; [reflexivity|constructor]]|]. split; [discriminate|]. split; [discriminate|]. split; [|discriminate]. rewrite D by discriminate. exact I5.
    + destruct o; [|discriminate E]. injection E as <-. cbn [queue cur job sender answers]. split; [rewrite I1, app_nil_r; reflexivity|]. split; [exact I2|]. split; [exact I3|]. split; [exact I4|]. split; [|reflexivity].
      split; [intros _; apply in_or_app; right; now left|reflexivity].
    + destruct j, c, q, o; try discriminate E. injection E as <-. cbn [queue cur job sender answers]. split; [rewrite I1, app_nil_r; reflexivity|]. split; [exact I2|]. split; [discriminate|]. split; [reflexivity|]. split; [|reflexivity]. rewrite D by discriminate. exact I5.
Qed.

(** * Theorems *)

(** C104: a client that is told that the zones were cleaned asked before the pass began *)
Theorem C104_told es s i : run fresh es = Some s -> In (i, Cleaned) (answers s) -> pass_after i es.
Proof. intros R. apply (inv_run es s R). Qed.

(** C104: as long as no pass fails, requests are answered in the order in which they were made, each after a pass of its own, none is refused or forgotten; and waiting for
    the task in a shutdown succeeds, which is only after every request has been answered *)
Theorem C104_served es s : run fresh es = Some s -> no_failure es ->
  (exists waiting, requests es = map fst (answers s) ++ waiting) /\ Forall (fun x => snd x = Cleaned) (answers s) /\
  (joined s = None \/ joined s = Some true /\ map fst (answers s) = requests es).
Proof.
  intros R N. destruct (order es s R N) as (I1 & I2 & I3 & I4 & _). split; [eauto|]. split; [exact I2|]. unfold joined. destruct (job s); [now left| |congruence].
  right. split; [reflexivity|]. rewrite I1, (I4 eq_refl), app_nil_r. reflexivity.
Qed.

(** C104: whatever clients do, while no pass fails: the task by itself answers everything and, after a shutdown, ends *)
Lemma drain q : forall c o ans, exists es s, Forall of_task es /\ run (St q c Running o ans) es = Some s /\
  map fst (answers s) = map fst ans ++ now (St q c Running o ans) ++ q /\ (o = false -> job s = Finished).
Proof.
  assert (B : forall q o ans, exists es s, Forall of_task es /\ run (St q None Running o ans) es = Some s /\ map fst (answers s) = map fst ans ++ q /\ (o = false -> job s = Finished)).
  { clear q. induction q as [|i q IH]; intros o ans.
    - destruct o; [exists [], (St [] None Running true ans)|exists [Exit], (St [] None Finished false ans)]; (split; [first [constructor; fail|constructor; [right; now right|constructor]|constructor]|]); (split; [reflexivity|]); (split; [now rewrite app_nil_r|easy]).
    - destruct (IH o (ans ++ [(i, Cleaned)])) as (es & s & F & R & A & D). exists (Start :: Ends true :: es), s. split; [constructor; [now left|constructor; [right; now left|exact F]]|]. split; [exact R|]. split; [|exact D].
      rewrite A, map_app, <- app_assoc. reflexivity. }
  intros [i|] o ans; [|destruct (B q o ans) as (es & s & F & R & A & D); exists es, s; auto].
  destruct (B q o (ans ++ [(i, Cleaned)])) as (es & s & F & R & A & D). exists (Ends true :: es), s. split; [constructor; [unfold of_task; auto|exact F]|]. split; [exact R|]. split; [|exact D].
  rewrite A, map_app, <- app_assoc. reflexivity.
Qed.
Theorem C104_drains es s : run fresh es = Some s -> no_failure es ->
  exists more s', Forall of_task more /\ run s more = Some s' /\ map fst (answers s') = requests es /\ (In Drop es -> joined s' = Some true).
Proof.
  intros R N. destruct (order es s R N) as (I1 & I2 & I3 & I4 & I5 & I6). destruct s as [q c j o ans]. cbn [queue cur job sender answers] in *. destruct j; [| |congruence].
  - destruct (drain q c o ans) as (more & s' & F & R' & A & D). exists more, s'. split; [exact F|]. split; [exact R'|]. split; [rewrite I1; exact A|]. intros H. apply I5 in H. unfold joined. now rewrite (D H).
  - exists [], (St q c Finished o ans). split; [constructor|]. split; [reflexivity|]. split; [rewrite I1, (I4 eq_refl), app_nil_r; reflexivity|reflexivity].
Qed.
(** C104: and it cannot go on for ever: every step that it takes leaves less to do *)
Definition todo (s : st) : nat := 2 * length (queue s) + length (now s) + match job s with Running => 1 | _ => 0 end.
Theorem C104_task_ends s e s' : of_task e -> step s e = Some s' -> (todo s' < todo s)%nat.
Proof.
  destruct s as [q c j o ans]. unfold todo, now. intros [->|[->| ->]]; cbn [step queue cur job sender answers]; destruct j, c, q, o; try discriminate; intros E; injection E as <-; cbn [queue cur job length]; lia.
Qed.

(** C104: what is false: that a pass that fails is only a matter of the client who asked for it.  After any failure, all the requests that wait are dropped, every later
    request panics, and so does the shutdown. *)
Theorem C104_failure es s s' : run fresh es = Some s -> step s (Ends false) = Some s' ->
  (forall i, In i (queue s) -> In (i, Canceled) (answers s')) /\
  forall es' s2, run s' es' = Some s2 -> joined s2 = Some false /\ (forall i, In (Request i) es' -> In (i, Panics) (answers s2)).
Proof.
  intros _ E. destruct s as [q c j o ans]. cbn [step cur job] in E. destruct j, c as [i|]; try discriminate E. injection E as <-. split.
  - cbn [queue answers]. intros k H. apply in_or_app. right. right. apply in_map_iff. eauto.
  - assert (H : forall es' s1 s2, job s1 = Crashed -> run s1 es' = Some s2 -> job s2 = Crashed /\ (forall x, In x (answers s1) -> In x (answers s2)) /\ forall i, In (Request i) es' -> In (i, Panics) (answers s2)).
    { induction es' as [|e es' IH]; intros s1 s2 J R; [injection R as <-; split; [exact J|]; split; [auto|intros k []]|]. cbn [run] in R. destruct (step s1 e) as [s3|] eqn:E3; [|discriminate R].
      assert (S3 : job s3 = Crashed /\ (forall x, In x (answers s1) -> In x (answers s3)) /\ forall k, e = Request k -> In (k, Panics) (answers s3)).
      { destruct s1 as [q1 c1 j1 o1 a1]. cbn [job] in J. subst j1. destruct e; cbn [step job cur queue sender answers] in E3; try discriminate E3; (destruct o1; [|discriminate E3]); injection E3 as <-; cbn [job answers].
        - split; [reflexivity|]. split; [intros x Hx; apply in_or_app; now left|]. intros k Hk. injection Hk as <-. apply in_or_app. right. now left.
        - split; [reflexivity|]. split; [auto|discriminate]. }
      destruct S3 as (J3 & A3 & P3). destruct (IH s3 s2 J3 R) as (J2 & A2 & P2). split; [exact J2|]. split; [auto|]. intros k [Hk|Hk]; [|auto]. apply A2, P3, Hk. }
    intros es' s2 R. specialize (H es' _ s2 (eq_refl : job (St [] None Crashed o _) = Crashed) R). destruct H as (J & _ & P). split; [unfold joined; now rewrite J|exact P].
Qed.
Theorem C104_failure_refuted : exists es s, run fresh es = Some s /\ requests es = [1; 2; 3] /\
  answers s = [(1, Canceled); (2, Canceled); (3, Panics)] /\ joined s = Some false.
Proof. exists [Request 1; Start; Request 2; Ends false; Request 3; Drop]. eexists. split; [reflexivity|]. split; [reflexivity|]. split; reflexivity. Qed.

(** * Examples *)
Example C104_ex : exists s, run fresh [Request 1; Request 2; Start; Request 3; Ends true; Start; Drop; Ends true; Start; Ends true; Exit] = Some s /\
  no_failure [Request 1; Request 2; Start; Request 3; Ends true; Start; Drop; Ends true; Start; Ends true; Exit] /\
  answers s = [(1, Cleaned); (2, Cleaned); (3, Cleaned)] /\ joined s = Some true.
Proof. eexists. split; [reflexivity|]. split; [unfold no_failure; cbn; intuition discriminate|]. split; reflexivity. Qed.

Print Assumptions C104_told.
Print Assumptions C104_served.
Print Assumptions C104_drains.
Print Assumptions C104_task_ends.
Print Assumptions C104_failure.
Print Assumptions C104_failure_refuted.
