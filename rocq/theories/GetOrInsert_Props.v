(** C20: concurrent cache misses. *)
From Verif Require Import Common GetOrInsert_Model.

(** A schedule in which reads succeed, no caller gives up, and the record is not evicted. *)
Definition fair (a : step) : Prop :=
  match a with ReadErr _ | Cancel _ | Evict => False | _ => True end.

Definition inv (s : st) : Prop :=
  poisoned s = false /\
  (forall t, tasks s t <> Failed /\ tasks s t <> Panicked /\ tasks s t <> Cancelled) /\
  (forall t, tasks s t = Woken -> cached s = true) /\
  match pending s with
  | None => forall t, tasks s t <> Reading /\ tasks s t <> Waiting
  | Some v => cached s = false /\ (exists r, forall t, tasks s t = Reading <-> t = r) /\
              NoDup v /\ (forall t, In t v <-> tasks s t = Waiting)
  end.

Lemma upd_same f t x : upd f t x t = x. Proof. unfold upd. now rewrite Nat.eqb_refl. Qed.
Lemma upd_other f t x t' : t' <> t -> upd f t x t' = f t'.
Proof. intros. unfold upd. destruct (Nat.eqb_spec t' t); [contradiction|reflexivity]. Qed.

Lemma wake_ok v : forall f, (forall t, In t v -> f t <> Cancelled) ->
  exists g, wake f v = Some g /\ (forall t, In t v -> g t = Woken) /\ (forall t, ~ In t v -> g t = f t).
Proof.
  induction v as [|x v IH]; intros f H; cbn [wake].
  - exists f. cbn. intuition.
  - unfold is_cancelled. destruct (f x) eqn:E; try (exfalso; apply (H x); [left; reflexivity|exact E]);
    (destruct (IH (upd f x Woken)) as (g & Hg & H1 & H2);
     [intros t Ht; destruct (Nat.eq_dec t x) as [->|Hne]; [rewrite upd_same; discriminate|rewrite upd_other by exact Hne; apply H; right; exact Ht]|];
     exists g; split; [exact Hg|]; split;
     [intros t [<-|Ht]; [|auto]; destruct (in_dec Nat.eq_dec x v); [auto|rewrite H2 by assumption; apply upd_same]
     |intros t Ht; cbn [In] in Ht; rewrite H2 by tauto; apply upd_other; intros ->; tauto]).
Qed.

Lemma inv_step s a : inv s -> fair a -> inv (exec s a).
Proof.
  intros (Hp & Hok & Hw & Hpe) Hf. destruct a as [t|t|t|t|t|]; cbn [fair] in Hf; try contradiction; cbn [exec].
  - (* Request *)
    destruct (tasks s t) eqn:Et; try (repeat split; assumption || apply Hok).
    rewrite Hp. destruct (cached s) eqn:Ec.
    + assert (Hpn : pending s = None) by (destruct (pending s); [destruct Hpe; congruence|reflexivity]).
      rewrite Hpn in *. split; [reflexivity|]. cbn [tasks cached pending]. split.
      { intros t'. destruct (Nat.eq_dec t' t) as [->|Hne]; [rewrite upd_same; repeat split; discriminate|rewrite upd_other by exact Hne; apply Hok]. }
      split; [auto|]. intros t'. destruct (Nat.eq_dec t' t) as [->|Hne]; [rewrite upd_same; split; discriminate|rewrite upd_other by exact Hne; apply Hpe].
    + destruct (pending s) as [v|].
      * destruct Hpe as (_ & (r & Hr) & Hnd & Hv). split; [reflexivity|]. cbn [tasks cached pending]. split.
        { intros t'. destruct (Nat.eq_dec t' t) as [->|Hne]; [rewrite upd_same; repeat split; discriminate|rewrite upd_other by exact Hne; apply Hok]. }
        split.
        { intros t'. destruct (Nat.eq_dec t' t) as [->|Hne]; [rewrite upd_same; discriminate|rewrite upd_other by exact Hne; apply Hw]. }
        split; [reflexivity|]. split.
        { exists r. intros t'. destruct (Nat.eq_dec t' t) as [->|Hne]; [rewrite upd_same|rewrite upd_other by exact Hne; apply Hr].
          split; [discriminate|]. intros ->. pose proof (proj2 (Hr r) eq_refl). congruence. }
        split.
        { apply NoDup_Add with (a := t) (l := v); [rewrite <- (app_nil_r v) at 1; apply Add_app|].
          split; [exact Hnd|]. rewrite Hv. congruence. }
        intros t'. rewrite in_app_iff. cbn [In]. destruct (Nat.eq_dec t' t) as [->|Hne].
        -- rewrite upd_same. intuition.
        -- rewrite upd_other by exact Hne. rewrite Hv. intuition congruence.
      * split; [reflexivity|]. cbn [tasks cached pending]. split.
        { intros t'. destruct (Nat.eq_dec t' t) as [->|Hne]; [rewrite upd_same; repeat split; discriminate|rewrite upd_other by exact Hne; apply Hok]. }
        split.
        { intros t'. destruct (Nat.eq_dec t' t) as [->|Hne]; [rewrite upd_same; discriminate|rewrite upd_other by exact Hne; apply Hw]. }
        split; [reflexivity|]. split.
        { exists t. intros t'. destruct (Nat.eq_dec t' t) as [->|Hne]; [rewrite upd_same; tauto|rewrite upd_other by exact Hne].
          split; [intros E; exfalso; exact (proj1 (Hpe t') E)|contradiction]. }
        split; [constructor|]. intros t'. destruct (Nat.eq_dec t' t) as [->|Hne].
        -- rewrite upd_same. cbn. split; [tauto|discriminate].
        -- rewrite upd_other by exact Hne. cbn. split; [tauto|]. intros E. exact (proj2 (Hpe t') E).
  - (* ReadOk *)
    destruct (tasks s t) eqn:Et; try (repeat split; assumption || apply Hok).
    rewrite Hp. destruct (pending s) as [v|]; [|exfalso; exact (proj1 (Hpe t) Et)].
    destruct Hpe as (_ & (r & Hr) & Hnd & Hv).
    destruct (wake_ok v (tasks s)) as (g & -> & H1 & H2); [intros t' _; apply Hok|].
    assert (Hg : forall t', g t' <> Failed /\ g t' <> Panicked /\ g t' <> Cancelled).
    { intros t'. destruct (in_dec Nat.eq_dec t' v); [rewrite H1 by assumption; repeat split; discriminate|rewrite H2 by assumption; apply Hok]. }
    split; [reflexivity|]. cbn [tasks cached pending]. split.
    { intros t'. destruct (Nat.eq_dec t' t) as [->|Hne]; [rewrite upd_same; repeat split; discriminate|rewrite upd_other by exact Hne; apply Hg]. }
    split; [reflexivity|]. intros t'. destruct (Nat.eq_dec t' t) as [->|Hne]; [rewrite upd_same; split; discriminate|].
    rewrite upd_other by exact Hne. destruct (in_dec Nat.eq_dec t' v) as [Hi|Hi]; [rewrite H1 by assumption; split; discriminate|].
    rewrite H2 by assumption. split.
    + intros E. apply Hr in E. apply Hr in Et. congruence.
    + rewrite <- Hv. exact Hi.
  - (* Poll *)
    destruct (tasks s t) eqn:Et; try (repeat split; assumption || apply Hok).
    rewrite Hp. rewrite (Hw t Et).
    assert (Hpn : pending s = None) by (destruct (pending s); [destruct Hpe as [Hc _]; rewrite (Hw t Et) in Hc; discriminate|reflexivity]).
    rewrite Hpn in *. split; [reflexivity|]. cbn [tasks cached pending]. split.
    { intros t'. destruct (Nat.eq_dec t' t) as [->|Hne]; [rewrite upd_same; repeat split; discriminate|rewrite upd_other by exact Hne; apply Hok]. }
    split; [auto|]. intros t'. destruct (Nat.eq_dec t' t) as [->|Hne]; [rewrite upd_same; split; discriminate|rewrite upd_other by exact Hne; apply Hpe].
Qed.

Lemma inv_run l : forall s, inv s -> Forall fair l -> inv (run s l).
Proof.
  induction l as [|a l IH]; intros s Hi Hf; cbn; [exact Hi|]. inversion Hf; subst. apply IH; [|assumption]. now apply inv_step.
Qed.

Lemma inv_init : inv init.
Proof. repeat split; try discriminate. Qed.

(** ** C20, for schedules in which reads succeed and the record is not evicted before the
    waiters run.  Nobody panics; the underlying read is issued by exactly one task at a
    time; as soon as that read completes every waiter can run and is answered. *)
Theorem C20_misses_answered_partial : forall sched t, Forall fair sched ->
  let s := run init sched in
  tasks s t <> Panicked /\
  (forall r1 r2, tasks s r1 = Reading -> tasks s r2 = Reading -> r1 = r2) /\
  (tasks s t = Waiting -> exists r, tasks s r = Reading /\
     tasks (run s [ReadOk r; Poll t]) t = Answered) /\
  (tasks s t = Reading -> tasks (run s [ReadOk t]) t = Answered) /\
  (tasks s t = Woken -> tasks (run s [Poll t]) t = Answered).
Proof.
  intros sched t Hf s. assert (Hi : inv s) by (apply inv_run; [exact inv_init|exact Hf]).
  pose proof Hi as (Hp & Hok & Hw & Hpe). split; [apply Hok|].
  assert (Hone : forall r1 r2, tasks s r1 = Reading -> tasks s r2 = Reading -> r1 = r2).
  { intros r1 r2 H1 H2. destruct (pending s); [|exfalso; exact (proj1 (Hpe r1) H1)].
    destruct Hpe as (_ & (r & Hr) & _). apply Hr in H1. apply Hr in H2. congruence. }
  split; [exact Hone|]. split; [|split].
  - intros Ht. destruct (pending s) as [v|] eqn:Ev; [|exfalso; exact (proj2 (Hpe t) Ht)].
    destruct Hpe as (Hc & (r & Hr) & Hnd & Hv). exists r. pose proof (proj2 (Hr r) eq_refl) as Er. split; [exact Er|].
    cbn [run fold_left exec]. rewrite Er, Hp, Ev.
    destruct (wake_ok v (tasks s)) as (g & -> & H1 & H2); [intros t' _; apply Hok|]. cbn [tasks poisoned cached].
    assert (t <> r) by (intros ->; congruence). rewrite upd_other by assumption. rewrite (H1 t) by (apply Hv; exact Ht).
    cbn [tasks]. apply upd_same.
  - intros Ht. cbn [run fold_left exec]. rewrite Ht, Hp. destruct (pending s) as [v|]; [|apply upd_same].
    destruct (wake_ok v (tasks s)) as (g & -> & H1 & H2); [intros t' _; apply Hok|]. apply upd_same.
  - intros Ht. cbn [run fold_left exec]. rewrite Ht, Hp, (Hw t Ht). apply upd_same.
Qed.

(** The full claim is false.  After a failed read, the next request for the record is never
    answered: whatever happens later, it keeps waiting (or its caller gives up). *)
Theorem C20_failed_read_hangs_refuted : exists sched t,
  tasks (run init sched) t = Waiting /\
  forall more, tasks (run (run init sched) more) t = Waiting \/ tasks (run (run init sched) more) t = Cancelled.
Proof.
  exists [Request 0%nat; ReadErr 0%nat; Request 1%nat], 1%nat. split; [reflexivity|].
  set (s := run init _).
  set (P := fun s : st => cached s = false /\ poisoned s = false /\ (exists v, pending s = Some v) /\
            (forall t, tasks s t <> Reading /\ tasks s t <> Woken) /\
            (tasks s 1%nat = Waiting \/ tasks s 1%nat = Cancelled)).
  assert (H0 : P s).
  { unfold P. split; [reflexivity|]. split; [reflexivity|]. split; [eexists; reflexivity|]. split.
    - intros [|[|t]]; cbn; split; discriminate.
    - left. reflexivity. }
  assert (Hstep : forall s a, P s -> P (exec s a)).
  { clear. intros s a (Hc & Hp & (v & Hv) & Hn & H1).
    destruct a as [t|t|t|t|t|]; cbn [exec].
    - destruct (tasks s t) eqn:Et; try (repeat split; eauto; apply Hn).
      rewrite Hp, Hc, Hv. repeat split; cbn [tasks pending cached poisoned]; eauto.
      + destruct (Nat.eq_dec t0 t) as [->|Hne]; [rewrite upd_same; discriminate|rewrite upd_other by exact Hne; apply Hn].
      + destruct (Nat.eq_dec t0 t) as [->|Hne]; [rewrite upd_same; discriminate|rewrite upd_other by exact Hne; apply Hn].
      + rewrite upd_other; [exact H1|]. intros <-. destruct H1; congruence.
    - destruct (tasks s t) eqn:Et; try (repeat split; eauto; apply Hn). exfalso. exact (proj1 (Hn t) Et).
    - destruct (tasks s t) eqn:Et; try (repeat split; eauto; apply Hn). exfalso. exact (proj1 (Hn t) Et).
    - destruct (tasks s t) eqn:Et; try (repeat split; eauto; apply Hn). exfalso. exact (proj2 (Hn t) Et).
    - destruct (tasks s t) eqn:Et; try (repeat split; eauto; apply Hn).
      repeat split; cbn [tasks pending cached poisoned]; eauto.
      + destruct (Nat.eq_dec t0 t) as [->|Hne]; [rewrite upd_same; discriminate|rewrite upd_other by exact Hne; apply Hn].
      + destruct (Nat.eq_dec t0 t) as [->|Hne]; [rewrite upd_same; discriminate|rewrite upd_other by exact Hne; apply Hn].
      + destruct (Nat.eq_dec 1 t) as [<-|Hne]; [rewrite upd_same; auto|rewrite upd_other by exact Hne; exact H1].
    - repeat split; cbn [tasks pending cached poisoned]; eauto; apply Hn. }
  intros more. assert (H : P (run s more)).
  { revert H0. generalize s. induction more as [|a more IH]; intros s0 H0; [exact H0|].
    cbn [run fold_left]. apply IH. now apply Hstep. }
  apply H.
Qed.

(** ... and a waiter panics if the record is evicted between the wake-up and its turn. *)
Theorem C20_eviction_panics_refuted : exists sched t, tasks (run init sched) t = Panicked.
Proof.
  exists [Request 0%nat; Request 1%nat; ReadOk 0%nat; Evict; Poll 1%nat], 1%nat. reflexivity.
Qed.

(** Three tasks ask at once; one reads, all are answered. *)
Example C20_ex : let s := run init [Request 0%nat; Request 1%nat; Request 2%nat] in
  Forall fair [Request 0%nat; Request 1%nat; Request 2%nat] /\
  tasks s 0%nat = Reading /\ tasks s 2%nat = Waiting /\
  tasks (run s [ReadOk 0%nat; Poll 2%nat; Poll 1%nat; Request 3%nat]) 3%nat = Answered.
Proof. repeat split; repeat constructor. Qed.

Print Assumptions C20_misses_answered_partial.
Print Assumptions C20_failed_read_hangs_refuted.
Print Assumptions C20_eviction_panics_refuted.
