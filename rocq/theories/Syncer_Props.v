(** C97: everything is synced within a bounded time. *)
From Verif Require Import Common Syncer_Model.

(** * Specification *)

(** How long things take at most: [late]: until the task notices that a delay is over or a message has come; [flush], [sync]: one flush and one sync;
    [kick]: until the task receives a message *)
Record delays := Delays { late : Z; flush : Z; sync : Z; kick : Z }.

Section Spec.
Context (d : delays).

(** what can happen in a round that begins at [top], given what the task does *)
Definition possible (k : task) (e : event) (a : list action) : Prop :=
  match e with
  | Tick t t' => top k + 100000000 <= t <= top k + 100000000 + late d /\ t <= t' <= t + (match a with [Sync _] => sync d | _ => flush d end)
  | Kick s t => top k <= t <= top k + 100000000 + late d /\ s <= t <= s + kick d
  | Shutdown t => top k <= t
  end.
(** histories of the task, with what was done *)
Inductive history (t0 : Z) : option task -> list action -> Prop :=
| h_start : history t0 (Some (start t0)) []
| h_round k l e k' a : history t0 (Some k) l -> round k e = (k', a) -> possible k e a -> history t0 k' (l ++ a).

(** when a sync was begun, by the task or by a client *)
Definition begun (l : list action) (t : Z) : Prop := In (Sync t) l \/ In (ClientSync t) l.

(** the longest time without a sync *)
Definition longest : Z := 5 * 1000000000 + 100000000 + late d + flush d + Z.max (sync d) (kick d).
End Spec.

Section Proofs.
Context (d : delays) (D0 : 0 <= late d) (D1 : 0 <= flush d) (D2 : 0 <= sync d).

(** the last sync, or the start of the task *)
Definition last_sync (t0 : Z) (l : list action) (u : Z) : Prop := (u = t0 \/ begun l u) /\ forall t, begun l t -> t <= u.

Lemma begun_app l a t : begun (l ++ a) t <-> begun l t \/ begun a t.
Proof. unfold begun. rewrite !in_app_iff. tauto. Qed.

Lemma inv t0 k l : history d t0 (Some k) l -> exists u, last_sync t0 l u /\ t0 <= u /\ u <= top k /\ sync_time k <= u + Z.max (sync d) (kick d) + sync_duration /\
  top k <= Z.max (u + Z.max (sync d) (kick d)) (sync_time k + flush d) /\
  forall w, t0 <= w <= u -> exists v, begun l v /\ w <= v <= w + longest d \/ w = t0.
Proof.
  intros H. remember (Some k) as ok eqn:Ek. revert k Ek. induction H as [|k l e k' a H IH R P]; intros k1 Ek.
  - injection Ek as <-. exists t0. unfold start, longest, sync_duration, last_sync, begun. cbn [top sync_time In]. split; [split; [now left|intros t [[]|[]]]|]. split; [lia|]. split; [lia|]. split; [lia|]. split; [lia|].
    intros w Hw. exists t0. right. lia.
  - subst k'. destruct (IH k eq_refl) as (u & (L1 & L2) & U0 & U & S & T & W). clear IH.
    destruct e as [t t'|s t|t]; cbn [round] in R.
    + destruct (Z.ltb_spec (sync_time k) t) as [C|C]; injection R as <- <-; cbn [possible] in P; destruct P as (P1 & P2); cbn [top sync_time].
      * exists t. split; [split; [right; apply begun_app; right; left; now left|]|].
        { intros v V. apply begun_app in V. destruct V as [V|[[V|[]]|[V|[]]]]; [specialize (L2 v V); unfold wakeup in *; lia| |discriminate]. injection V as ->. lia. }
        split; [lia|]. split; [lia|]. split; [lia|]. split; [lia|]. intros w Hw. destruct (Z.le_gt_cases w u) as [Q|Q].
        { destruct (W w ltac:(lia)) as (v & [(V & Hv)|V]); exists v; [left|right; exact V]. split; [apply begun_app; now left|exact Hv]. }
        exists t. left. split; [apply begun_app; right; left; now left|]. unfold longest, sync_duration in *. lia.
      * exists u. split; [split; [destruct L1 as [L1|L1]; [now left|right; apply begun_app; now left]|]|].
        { intros v V. apply begun_app in V. destruct V as [V|[[V|[]]|[V|[]]]]; try discriminate. now apply L2. }
        split; [lia|]. split; [lia|]. split; [exact S|]. split; [lia|]. intros w Hw. destruct (W w Hw) as (v & [(V & Hv)|V]); exists v; [left|right; exact V]. split; [apply begun_app; now left|exact Hv].
    + injection R as <- <-. cbn [possible] in P. destruct P as (P1 & P2). cbn [top sync_time].
      exists (Z.max u s). split; [split|].
      { destruct (Z.max_spec u s) as [(M & ->)|(M & ->)]; [right; apply begun_app; right; right; now left|]. destruct L1 as [L1|L1]; [now left|right; apply begun_app; now left]. }
      { intros v V. apply begun_app in V. destruct V as [V|[[V|[]]|[V|[]]]]; [specialize (L2 v V); lia|discriminate|]. injection V as ->. lia. }
      split; [lia|]. split; [lia|]. split; [lia|]. split; [lia|]. intros w Hw. destruct (Z.le_gt_cases w u) as [Q|Q].
      { destruct (W w ltac:(lia)) as (v & [(V & Hv)|V]); exists v; [left|right; exact V]. split; [apply begun_app; now left|exact Hv]. }
      exists s. left. split; [apply begun_app; right; right; now left|]. unfold longest, sync_duration in *. lia.
    + discriminate.
Qed.
End Proofs.

(** C97: as long as the task runs, a sync begins at most [longest] after any moment, so that whatever was written by then is synced *)
Theorem C97_synced_in_time (d : delays) t0 k l w : 0 <= late d -> 0 <= flush d -> 0 <= sync d ->
  history d t0 (Some k) l -> t0 < w -> w + longest d < top k -> exists u, begun l u /\ w <= u <= w + longest d.
Proof.
  intros D0 D1 D2 H Hw Ht. destruct (inv d D0 D1 D2 t0 k l H) as (u & L & U0 & U & S & T & W).
  destruct (W w) as (v & [V|V]); [|exists v; exact V|lia]. unfold longest, sync_duration in *. lia.
Qed.
(** C97: on its own the task begins a sync only if no sync was begun, by itself or by a client, in the five seconds before *)
Lemma spacing (d : delays) t0 k l : 0 <= late d -> history d t0 k l ->
  (forall k1, k = Some k1 -> t0 + sync_duration <= sync_time k1 <= top k1 + sync_duration /\ forall u, begun l u -> u + sync_duration <= sync_time k1) /\
  forall l1 t l2, l = l1 ++ Sync t :: l2 -> t0 + sync_duration < t /\ forall u, begun l1 u -> u + sync_duration < t.
Proof.
  intros D H. induction H as [|k l e k' a H (I & J) R P].
  - split; [|intros [|x l1] t l2 E; discriminate]. intros k1 Ek. injection Ek as <-. unfold start. cbn [top sync_time]. split; [lia|intros u [[]|[]]].
  - destruct (I k eq_refl) as (I1 & I2). clear I.
    assert (New : forall x l1 t l2, l ++ [x] = l1 ++ Sync t :: l2 -> (l = l1 /\ x = Sync t) \/ exists l3, l = l1 ++ Sync t :: l3).
    { intros x l1 t l2 E. destruct l2 as [|y l2] using rev_ind.
      - apply app_inj_tail in E. now left.
      - right. rewrite app_comm_cons, app_assoc in E. apply app_inj_tail in E. destruct E as (E & _). now exists l2. }
    destruct e as [t t'|s t|t]; cbn [round] in R.
    + destruct (Z.ltb_spec (sync_time k) t) as [C|C]; injection R as <- <-; cbn [possible sync_time] in *; split.
      * intros k1 Ek. injection Ek as <-. cbn [top sync_time]. split; [lia|]. intros u V. apply begun_app in V. destruct V as [V|[[V|[]]|[V|[]]]]; [specialize (I2 u V); lia|injection V as ->; lia|discriminate].
      * intros l1 v l2 E. apply New in E. destruct E as [(<- & E)|(l3 & E)]; [|exact (J _ _ _ E)]. injection E as <-. split; [lia|]. intros u V. specialize (I2 u V). lia.
      * intros k1 Ek. injection Ek as <-. cbn [top sync_time]. split; [lia|]. intros u V. apply begun_app in V. destruct V as [V|[[V|[]]|[V|[]]]]; [now apply I2|discriminate|discriminate].
      * intros l1 v l2 E. apply New in E. destruct E as [(_ & E)|(l3 & E)]; [discriminate|exact (J _ _ _ E)].
    + injection R as <- <-. cbn [possible sync_time] in *. split.
      * intros k1 Ek. injection Ek as <-. cbn [top sync_time]. split; [lia|]. intros u V. apply begun_app in V. destruct V as [V|[[V|[]]|[V|[]]]]; [specialize (I2 u V); lia|discriminate|injection V as ->; lia].
      * intros l1 v l2 E. apply New in E. destruct E as [(_ & E)|(l3 & E)]; [discriminate|exact (J _ _ _ E)].
    + injection R as <- <-. split; [discriminate|]. intros l1 v l2 E. rewrite app_nil_r in E. exact (J _ _ _ E).
Qed.
Theorem C97_not_more_often (d : delays) t0 k l l1 t l2 : 0 <= late d -> history d t0 k l -> l = l1 ++ Sync t :: l2 ->
  t0 + 5 * 1000000000 < t /\ forall u, begun l1 u -> u + 5 * 1000000000 < t.
Proof. intros D H. exact (proj2 (spacing d t0 k l D H) l1 t l2). Qed.

(** C97: ending the task syncs nothing, so that what was written since the last sync is lost *)
Theorem C97_shutdown_refuted : exists d t0 l w k e, history d t0 (Some k) l /\ possible d k e [] /\ round k e = (None, []) /\ t0 < w /\
  (forall t, e = Shutdown t -> w < t) /\ forall u, begun l u -> u < w.
Proof.
  exists (Delays 0 0 0 0), 0, [], 1, (start 0), (Shutdown 2). split; [constructor|]. split; [cbn; lia|]. split; [reflexivity|]. split; [lia|]. split.
  - intros t E. injection E as <-. lia.
  - intros u [[]|[]].
Qed.

(** a history of a task: a flush may take a second, a client syncs in the second second *)
Definition sec : Z := 1000000000.
Definition slow : delays := Delays 0 sec sec sec.
Definition possibleb (d : delays) (k : task) (e : event) (a : list action) : bool :=
  match e with
  | Tick t t' => (top k + 100000000 <=? t) && (t <=? top k + 100000000 + late d) && (t <=? t') && (t' <=? t + (match a with [Sync _] => sync d | _ => flush d end))
  | Kick s t => (top k <=? t) && (t <=? top k + 100000000 + late d) && (s <=? t) && (t <=? s + kick d)
  | Shutdown t => top k <=? t
  end.
Lemma possibleb_ok d k e a : possibleb d k e a = true -> possible d k e a.
Proof. destruct e; cbn [possibleb possible]; rewrite ?andb_true_iff, ?Z.leb_le; intuition lia. Qed.
Fixpoint play (d : delays) (k : task) (l : list action) (es : list event) : option (task * list action) :=
  match es with
  | [] => Some (k, l)
  | e :: r => match round k e with (Some k1, a) => if possibleb d k e a then play d k1 (l ++ a) r else None | _ => None end
  end.
Lemma play_history d t0 es : forall k l k2 l2, history d t0 (Some k) l -> play d k l es = Some (k2, l2) -> history d t0 (Some k2) l2.
Proof.
  induction es as [|e es IH]; intros k l k2 l2 H E; cbn [play] in E; [injection E as <- <-; exact H|].
  destruct (round k e) as ([k1|], a) eqn:R; [|discriminate]. destruct (possibleb d k e a) eqn:P; [|discriminate].
  apply (IH k1 (l ++ a) k2 l2); [|exact E]. apply (h_round d t0 k l e (Some k1) a H R). now apply possibleb_ok.
Qed.
Definition ticks (n : nat) (t : Z) : list event := map (fun i => let x := t + Z.of_nat i * (11 * sec / 10) in Tick (x + sec / 10) (x + 11 * sec / 10)) (seq 0 n).
Example C97_ex : exists k l, history slow 0 (Some k) l /\ top k = 122 * sec / 10 /\
  l = [Flush (sec / 10); ClientSync (12 * sec / 10); Flush (13 * sec / 10); Flush (24 * sec / 10); Flush (35 * sec / 10); Flush (46 * sec / 10); Flush (57 * sec / 10); Sync (68 * sec / 10); Flush (79 * sec / 10); Flush (90 * sec / 10); Flush (101 * sec / 10); Flush (112 * sec / 10)] /\
  12 * sec / 10 + 1 + longest slow < top k.
Proof.
  destruct (play slow (start 0) [] (ticks 1 0 ++ [Kick (12 * sec / 10) (12 * sec / 10)] ++ ticks 10 (12 * sec / 10))) as [(k, l)|] eqn:E; [|vm_compute in E; discriminate].
  exists k, l. split; [apply (play_history _ _ _ _ _ _ _ (h_start slow 0) E)|]. vm_compute in E. injection E as <- <-. split; [reflexivity|]. split; [reflexivity|]. reflexivity.
Qed.

Print Assumptions C97_synced_in_time.
Print Assumptions C97_not_more_often.
Print Assumptions C97_shutdown_refuted.
