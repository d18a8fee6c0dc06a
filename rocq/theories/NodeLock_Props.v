(** What holds of a tree node that many tasks use at the same time (C99). *)
From Coq Require Import List ZArith Lia Bool Arith.
Import ListNotations.
From Verif Require Import NodeLock_Model.
Open Scope Z_scope.

(** * Specification

    The history of the node decides what it contains: what was written last.
    [None]: it was deleted, or has never been. *)
Fixpoint contents (h : list entry) : option Z :=
  match h with
  | [] => None
  | Wrote v :: _ => v
  | _ :: r => contents r
  end.

(** [x] is what the node contained at some moment of history [h], and task
    [t] had begun by then. *)
Definition contained_during (h : list entry) (t : nat) (x : option Z) : Prop :=
  exists later sofar,
    h = later ++ sofar /\ In (Began t) sofar /\ contents sofar = x.

(** What someone who looks finds: where the parent says that the node is. *)
Definition found (s : st) : option Z :=
  match ptr s with
  | Disk => Some (disk s)
  | Mem o => nth_error (objs s) o
  | Gone => None
  end.

(** No thread is interrupted while it drops a guard. *)
Definition prompt (e : event) : Prop :=
  match e with Run _ => False | _ => True end.

(** * Proofs *)
Lemma forallb_nth : forall f (ps : list phase),
  forallb (fun p => negb (f p)) ps = true <->
  forall u p, nth_error ps u = Some p -> f p = false.
Proof.
  intros f ps; rewrite forallb_forall; split.
  - intros H u p Hu. apply nth_error_In in Hu. apply H in Hu.
    now apply negb_true_iff.
  - intros H p Hp. apply In_nth_error in Hp. destruct Hp as [u Hu].
    apply negb_true_iff. eauto.
Qed.

Lemma others_spec : forall f ps t,
  others f t ps = true <->
  forall u p, u <> t -> nth_error ps u = Some p -> f p = false.
Proof.
  intros f; induction ps as [|q ps IH]; intros t; cbn [others].
  - split; intros H; [|destruct t; reflexivity].
    intros u p _ Hn. destruct u; discriminate.
  - destruct t as [|t].
    + rewrite forallb_nth. split.
      * intros H u p Hu Hn. destruct u as [|u]; [congruence|]. exact (H u p Hn).
      * intros H u p Hn. exact (H (S u) p ltac:(discriminate) Hn).
    + rewrite andb_true_iff, IH, negb_true_iff. split.
      * intros [A B] u p Hu Hn. destruct u as [|u]; cbn in Hn.
        { now inversion Hn; subst. } { apply (B u); congruence. }
      * intros H. split.
        { apply (H 0%nat); [discriminate|reflexivity]. }
        { intros u p Hu Hn. apply (H (S u)); [congruence|exact Hn]. }
Qed.

Lemma set_same : forall ps t p q, nth_error ps t = Some q ->
  nth_error (set_task t p ps) t = Some p.
Proof. induction ps as [|x ps IH]; intros [|t] p q H; cbn in *; try discriminate; eauto. Qed.

Lemma set_other : forall ps t p u, u <> t ->
  nth_error (set_task t p ps) u = nth_error ps u.
Proof.
  induction ps as [|x ps IH]; intros [|t] p [|u] H; cbn in *; try congruence.
  apply IH; congruence.
Qed.

Lemma obj_same : forall l o v, (o < length l)%nat ->
  nth_error (set_obj o v l) o = Some v.
Proof. induction l as [|x l IH]; intros [|o] v H; cbn in *; try lia; auto. apply IH; lia. Qed.

Lemma obj_other : forall l o v u, u <> o ->
  nth_error (set_obj o v l) u = nth_error l u.
Proof.
  induction l as [|x l IH]; intros [|o] v [|u] H; cbn in *; try congruence.
  apply IH; congruence.
Qed.

Lemma obj_length : forall l o v, length (set_obj o v l) = length l.
Proof. induction l as [|x l IH]; intros [|o] v; cbn; auto. Qed.

(** The contents of object [o]. *)
Definition val (s : st) (o : nat) : option Z := nth_error (objs s) o.

(** [o] is what the parent points to, or a copy of it. *)
Definition current (s : st) (o : nat) : Prop :=
  (ptr s = Disk /\ val s o = Some (disk s)) \/
  (ptr s = Mem o /\ (o < length (objs s))%nat).

Definition popped (s : st) (o : nat) : Prop :=
  ptr s = Disk /\ val s o = Some (disk s) /\ cache s = None.

Definition dirty (s : st) (o : nat) : Prop :=
  ptr s = Mem o /\ (o < length (objs s))%nat.

Definition task_ok (s : st) (t : nat) (p : phase) : Prop :=
  match p with
  | Start _ | Done => True
  | Parent Read => In (Began t) (log s)
  | Parent _ => True
  | Handle Read o | Locked Read o => In (Began t) (log s) /\ current s o
  | Handle (Modify _) o | Handle Purge o => popped s o \/ dirty s o
  | Handle Rewrite o => popped s o
  | Handle Flush o => dirty s o
  | Locked (Modify _) o | Unlocked (Modify _) o => popped s o
  | Locked Flush o | Unlocked Flush o => dirty s o
  | Inside Read o =>
      (o < length (objs s))%nat /\ contained_during (log s) t (val s o)
  | Owned _ o | Inside (Modify _) o | Written o => dirty s o
  | Tail o => (o < length (objs s))%nat
  | Locked Purge _ | Unlocked Read _ | Unlocked Purge _ | Inside Flush _
  | Inside Purge _ | Locked Rewrite _ | Unlocked Rewrite _
  | Inside Rewrite _ => False
  end.

Definition taking (o : nat) (p : phase) : bool :=
  match p with Unlocked _ o' => Nat.eqb o o' | _ => false end.

Definition compat (p q : phase) : Prop :=
  (holds_parent_excl p = true -> holds_parent q = false) /\
  (forall o, has_write o p = true -> has_lock o q = false) /\
  (forall o, taking o p = true -> has_lock o q = false).

Record Inv (s : st) : Prop := mkInv {
  i_task : forall t p, nth_error (tasks s) t = Some p -> task_ok s t p;
  i_compat : forall t u p q, t <> u -> nth_error (tasks s) t = Some p ->
    nth_error (tasks s) u = Some q -> compat p q;
  i_cache : forall c, cache s = Some c ->
    ptr s = Disk /\ val s c = Some (disk s);
  i_mem : forall o, ptr s = Mem o -> (o < length (objs s))%nat;
  i_found : found s = contents (log s);
  i_saw : forall a t x b, log s = a ++ Saw t x :: b -> contained_during b t x }.

Lemma during_cons : forall h e t x, contained_during h t x ->
  contained_during (e :: h) t x.
Proof.
  intros h e t x (a & b & -> & H1 & H2). exists (e :: a), b. auto.
Qed.

(** The general shape of a step of task [t] from [p] to [p']. *)
Lemma inv_step : forall s t p p' pt ca di ob lo,
  Inv s -> nth_error (tasks s) t = Some p ->
  let s' := mkSt (set_task t p' (tasks s)) pt ca di ob lo in
  task_ok s' t p' ->
  (forall u q, u <> t -> nth_error (tasks s) u = Some q -> task_ok s u q ->
     compat p q -> compat q p -> task_ok s' u q) ->
  (forall u q, u <> t -> nth_error (tasks s) u = Some q -> task_ok s u q ->
     compat p q -> compat q p -> compat p' q /\ compat q p') ->
  (forall c, ca = Some c -> pt = Disk /\ nth_error ob c = Some di) ->
  (forall o, pt = Mem o -> (o < length ob)%nat) ->
  found s' = contents lo ->
  (forall a u x b, lo = a ++ Saw u x :: b -> contained_during b u x) ->
  Inv s'.
Proof.
  intros s t p p' pt ca di ob lo I Hp s' Hok Hfr Hco Hca Hme Hfo Hsa.
  constructor; auto.
  - intros u q Hu. cbn in Hu. destruct (Nat.eq_dec u t) as [->|N].
    + rewrite (set_same _ _ _ _ Hp) in Hu. inversion Hu; subst. exact Hok.
    + rewrite set_other in Hu by exact N.
      apply Hfr; auto;
        [now apply (i_task _ I) | now apply (i_compat _ I t u); auto
        | now apply (i_compat _ I u t); auto].
  - intros u w q r N Hu Hw. cbn in Hu, Hw.
    destruct (Nat.eq_dec u t) as [->|Nu].
    + rewrite (set_same _ _ _ _ Hp) in Hu. inversion Hu; subst.
      rewrite set_other in Hw by auto.
      apply (Hco w r); auto;
        [now apply (i_task _ I) | now apply (i_compat _ I t w); auto
        | now apply (i_compat _ I w t); auto].
    + rewrite set_other in Hu by exact Nu.
      destruct (Nat.eq_dec w t) as [->|Nw].
      * rewrite (set_same _ _ _ _ Hp) in Hw. inversion Hw; subst.
        apply (Hco u q); auto;
          [now apply (i_task _ I) | now apply (i_compat _ I t u); auto
          | now apply (i_compat _ I u t); auto].
      * rewrite set_other in Hw by exact Nw.
        now apply (i_compat _ I u w).
Qed.

Lemma task_ok_log : forall s ps u q e,
  task_ok s u q ->
  task_ok (mkSt ps (ptr s) (cache s) (disk s) (objs s) (e :: log s)) u q.
Proof.
  intros s ps u q e H. destruct q as [k|k|[]|[]|[]| |[]| | |]; cbn in *; auto;
    try (destruct k; cbn in *; auto);
    unfold current, popped, dirty, val in *; cbn in *; intuition auto using during_cons.
Qed.

Lemma task_ok_same : forall s ps u q,
  task_ok s u q ->
  task_ok (mkSt ps (ptr s) (cache s) (disk s) (objs s) (log s)) u q.
Proof. intros s ps u q H. destruct q as [k|k|[]|[]|[]| |[]| | |]; exact H. Qed.

Lemma saw_cons : forall h e,
  (forall a u x b, h = a ++ Saw u x :: b -> contained_during b u x) ->
  (forall u x, e = Saw u x -> contained_during h u x) ->
  forall a u x b, e :: h = a ++ Saw u x :: b -> contained_during b u x.
Proof.
  intros h e Hh He a u x b E. destruct a as [|y a]; cbn in E; inversion E; subst.
  - now apply He.
  - eapply Hh; eauto.
Qed.

(** A step that only moves the task. *)
Lemma inv_goto : forall s t p p' s',
  Inv s -> nth_error (tasks s) t = Some p ->
  goto s t p' = Next s' ->
  task_ok s t p' ->
  (forall u q, u <> t -> nth_error (tasks s) u = Some q -> task_ok s u q ->
     compat p q -> compat q p -> compat p' q /\ compat q p') ->
  Inv s'.
Proof.
  intros s t p p' s' I Hp E Hok Hco. inversion E; subst; clear E.
  apply (inv_step s t p p'); [exact I|exact Hp|..].
  - now apply task_ok_same.
  - intros. now apply task_ok_same.
  - exact Hco.
  - apply (i_cache _ I).
  - apply (i_mem _ I).
  - exact (i_found _ I).
  - apply (i_saw _ I).
Qed.

Lemma inv_goto_log : forall s t p p' e s',
  Inv s -> nth_error (tasks s) t = Some p ->
  goto_log s t p' e = Next s' ->
  (match e with Wrote _ => False | Began _ => True
   | Saw u x => contained_during (log s) u x end) ->
  task_ok s' t p' ->
  (forall u q, u <> t -> nth_error (tasks s) u = Some q -> task_ok s u q ->
     compat p q -> compat q p -> compat p' q /\ compat q p') ->
  Inv s'.
Proof.
  intros s t p p' e s' I Hp E He Hok Hco. inversion E; subst; clear E.
  apply (inv_step s t p p'); [exact I|exact Hp|exact Hok|..].
  - intros. now apply task_ok_log.
  - exact Hco.
  - apply (i_cache _ I).
  - apply (i_mem _ I).
  - pose proof (i_found _ I) as F. destruct e; cbn; try exact F. contradiction.
  - apply saw_cons; [exact (i_saw _ I)|]. intros u x ->. exact He.
Qed.

(** A task that gives up locks stays compatible. *)
Definition below (p' p : phase) : Prop :=
  (holds_parent_excl p' = true -> holds_parent_excl p = true) /\
  (holds_parent p' = true -> holds_parent p = true) /\
  (forall o, has_write o p' = true -> has_write o p = true) /\
  (forall o, has_lock o p' = true -> has_lock o p = true) /\
  (forall o, taking o p' = true -> taking o p = true \/ has_write o p = true).

Lemma below_compat : forall p' p q, below p' p -> compat p q -> compat q p ->
  compat p' q /\ compat q p'.
Proof.
  intros p' p q (B1 & B2 & B3 & B4 & B5) (C1 & C2 & C3) (D1 & D2 & D3).
  split; (split; [|split]).
  - auto.
  - auto.
  - intros o H. destruct (B5 o H); auto.
  - intros H. apply D1 in H.
    destruct (holds_parent p') eqn:E; auto. rewrite B2 in H; auto.
  - intros o H. apply D2 in H.
    destruct (has_lock o p') eqn:E; auto. rewrite B4 in H; auto.
  - intros o H. apply D3 in H.
    destruct (has_lock o p') eqn:E; auto. rewrite B4 in H; auto.
Qed.

Ltac isbelow := repeat split; cbn; auto; try discriminate; intros; auto.

Lemma val_lt : forall s o v, val s o = Some v -> (o < length (objs s))%nat.
Proof. intros s o v H. apply nth_error_Some. unfold val in H. congruence. Qed.

Lemma current_lt : forall s o, current s o -> (o < length (objs s))%nat.
Proof. intros s o [[_ H]|[_ H]]; [eapply val_lt; eauto | exact H]. Qed.

Lemma popped_lt : forall s o, popped s o -> (o < length (objs s))%nat.
Proof. intros s o (_ & H & _). eapply val_lt; eauto. Qed.

Lemma current_found : forall s o, current s o -> val s o = found s.
Proof.
  intros s o [[H1 H2]|[H1 H2]]; unfold found; rewrite H1; auto.
Qed.

(** Objects are only added: what is known of a task stays. *)
Lemma task_ok_grow : forall s ps ca v u q,
  task_ok s u q ->
  (ca = cache s \/ (holds_parent_excl q = false)) ->
  task_ok (mkSt ps (ptr s) ca (disk s) (objs s ++ [v]) (log s)) u q.
Proof.
  intros s ps ca v u q H C.
  assert (L : forall o, (o < length (objs s))%nat -> (o < length (objs s ++ [v]))%nat)
    by (intros; rewrite app_length; cbn; lia).
  assert (V : forall o x, nth_error (objs s) o = Some x ->
                          nth_error (objs s ++ [v]) o = Some x).
  { intros o x E. rewrite nth_error_app1; auto. apply nth_error_Some. congruence. }
  assert (V2 : forall o, (o < length (objs s))%nat ->
                          nth_error (objs s ++ [v]) o = nth_error (objs s) o).
  { intros o E. now rewrite nth_error_app1. }
  destruct q as [k|k|[]|[]|[]| |[]| | |]; cbn in *; auto;
    try (destruct k; cbn in *; auto);
    unfold current, popped, dirty, val in *; cbn in *;
    try (destruct C as [->|C]; [|discriminate C]);
    try rewrite V2 by tauto;
    intuition auto.
Qed.

Lemma excl_parent : forall p, holds_parent_excl p = true -> holds_parent p = true.
Proof. intros []; cbn; auto. Qed.

Lemma write_lock : forall o p, has_write o p = true -> has_lock o p = true.
Proof.
  intros o []; cbn; auto; intros H; now apply andb_true_iff in H.
Qed.

Lemma now_during : forall s t, Inv s -> In (Began t) (log s) ->
  contained_during (log s) t (found s).
Proof.
  intros s t I H. exists [], (log s). repeat split; auto. symmetry. apply (i_found _ I).
Qed.

Lemma not_excl : forall p q, compat p q -> holds_parent_excl p = true ->
  holds_parent_excl q = false /\ holds_parent q = false.
Proof.
  intros p q (C & _) H. apply C in H. split; auto.
  destruct (holds_parent_excl q) eqn:E; auto. apply excl_parent in E. congruence.
Qed.

(** While a task has the parent to itself, the others' facts do not depend on
    the parent, the cache or the disk, unless they are inside a dirty node. *)
Lemma task_ok_outside : forall s ps pt ca di lo e u q,
  task_ok s u q -> holds_parent q = false ->
  (lo = log s \/ lo = e :: log s) ->
  (forall v o, q = Inside (Modify v) o \/ q = Written o -> pt = Mem o) ->
  task_ok (mkSt ps pt ca di (objs s) lo) u q.
Proof.
  intros s ps pt ca di lo e u q H P L D.
  destruct q as [k|k|k|k|k| |[]| | |]; cbn in *; auto; try discriminate.
  - destruct H as [H1 H2]. split; auto.
    destruct L as [->| ->]; [exact H2|now apply during_cons].
  - unfold dirty in *; cbn. destruct H as [H1 H2]. split; eauto.
  - unfold dirty in *; cbn. destruct H as [H1 H2]. split; [apply (D 0)|]; auto.
Qed.

Ltac bc := intros; eapply below_compat; eauto; isbelow.

Theorem inv_advance : forall s t p s', Inv s ->
  nth_error (tasks s) t = Some p -> advance s t p = Next s' -> Inv s'.
Proof.
  intros s t p s' I Hp E. pose proof (i_task _ I _ _ Hp) as T.
  destruct p as [k|k|k o|k o|k o|v o|k o|o|o|]; cbn [advance] in E; try discriminate E.
  - (* Start *)
    destruct (if is_read k then _ else _) eqn:C; [|discriminate E].
    refine (inv_goto_log _ _ _ _ _ _ I Hp E _ _ _); cbn.
    + exact Logic.I.
    + inversion E; subst. destruct k; cbn; auto.
    + intros u q Nu Hu _ _ _.
      destruct k; cbn in C.
      { rewrite others_spec in C. specialize (C u q Nu Hu).
        split; (split; [|split]); cbn; try discriminate; auto.
        congruence. }
      all: rewrite others_spec in C; specialize (C u q Nu Hu);
        split; (split; [|split]); cbn; try discriminate; auto;
        intros H; apply excl_parent in H; congruence.
  - (* Parent *)
    destruct (ptr s) as [|o|] eqn:Ep.
    + assert (G : forall k', k' = k -> match k' with Modify _ | Purge | Rewrite => True | _ => False end ->
                  do_pop s t k' = Next s' -> Inv s').
      { intros k' -> Hk Ed. unfold do_pop in Ed. destruct (cache s) as [c|] eqn:Ec.
        - inversion Ed; subst; clear Ed. destruct (i_cache _ I c Ec) as [_ Hc].
          apply (inv_step s t (Parent k)); [exact I|exact Hp|..].
          + destruct k; try contradiction; cbn; try left; unfold popped, val; cbn; auto.
          + intros u q Nu Hu Hq C1 C2. rewrite Ep.
            apply (task_ok_outside s _ Disk None (disk s) (log s) (Wrote None)); auto.
            * apply (not_excl _ _ C1). destruct k; try contradiction; auto.
            * intros v o [-> | ->]; cbn in Hq; destruct Hq as [Hq _]; congruence.
          + bc; destruct k; auto; try discriminate; contradiction.
          + discriminate.
          + intros o Ho. congruence.
          + pose proof (i_found _ I) as F. exact F.
          + exact (i_saw _ I).
        - inversion Ed; subst; clear Ed.
          apply (inv_step s t (Parent k)); [exact I|exact Hp|..].
          + assert (nth_error (objs s ++ [disk s]) (length (objs s)) = Some (disk s))
              by (rewrite nth_error_app2, Nat.sub_diag; auto).
            destruct k; try contradiction; cbn; try left; unfold popped, val; cbn; auto.
          + intros u q Nu Hu Hq C1 C2. apply task_ok_grow; auto.
          + bc; destruct k; auto; try discriminate; contradiction.
          + discriminate.
          + intros o Ho. congruence.
          + pose proof (i_found _ I) as F. unfold found in *; cbn. rewrite Ep in *. exact F.
          + exact (i_saw _ I). }
      destruct k; try (now apply (G _ eq_refl)).
      * (* get *)
        cbn in T. unfold do_get in E. destruct (cache s) as [c|] eqn:Ec.
        { destruct (i_cache _ I c Ec) as [_ Hc].
          refine (inv_goto _ _ _ _ _ I Hp E _ _); [|bc]. cbn. split; auto. left; auto. }
        { inversion E; subst; clear E.
          assert (N : nth_error (objs s ++ [disk s]) (length (objs s)) = Some (disk s))
              by (rewrite nth_error_app2, Nat.sub_diag; auto).
          apply (inv_step s t (Parent Read)); [exact I|exact Hp|..].
          - cbn. split; auto. left. split; auto.
          - intros u q Nu Hu Hq C1 C2. apply task_ok_grow; auto.
            right. destruct C2 as (C2 & _).
            destruct (holds_parent_excl q); auto.
          - bc.
          - intros c H. inversion H; subst. auto.
          - intros o H. congruence.
          - pose proof (i_found _ I) as F. unfold found in *; cbn. rewrite Ep in *. exact F.
          - exact (i_saw _ I). }
      * refine (inv_goto _ _ _ _ _ I Hp E _ _); [|bc]. cbn; auto.
    + assert (L := i_mem _ I o Ep).
      assert (R : k = Rewrite \/ k <> Rewrite) by (destruct k; auto; right; discriminate).
      destruct R as [-> | R].
      { refine (inv_goto _ _ _ _ _ I Hp E _ _); [exact Logic.I|bc]. }
      assert (E' : goto s t (Handle k o) = Next s') by (destruct k; congruence || exact E).
      refine (inv_goto _ _ _ _ _ I Hp E' _ _).
      * destruct k; cbn in *; auto; try (right; split; auto; fail).
        { split; auto. right; split; auto. } { split; auto. } { congruence. }
      * bc; destruct k; auto; discriminate.
    + destruct k; [|refine (inv_goto _ _ _ _ _ I Hp E _ _); [cbn; auto|bc]..].
      refine (inv_goto_log _ _ _ _ _ _ I Hp E _ _ _); cbn; [|auto|bc].
      replace None with (found s) by (unfold found; now rewrite Ep).
      now apply now_during.
  - (* Handle *)
    destruct k.
    + (* Read *)
      destruct (others _ _ _) eqn:C; [|discriminate E].
      rewrite others_spec in C.
      refine (inv_goto _ _ _ _ _ I Hp E _ _); [exact T|].
      intros u q Nu Hu Hq (C1 & C2 & C3) (D1 & D2 & D3). specialize (C u q Nu Hu).
      split; (split; [|split]); cbn; try discriminate; auto.
      * intros o' H. destruct (Nat.eqb_spec o' o); auto. subst. congruence.
      * intros o' H. destruct (Nat.eqb_spec o' o); auto. subst.
        destruct q; cbn in H; try discriminate.
        assert (holds_parent (Handle Read o) = false); [|discriminate].
        apply D1. cbn. cbn in Hq. destruct k; cbn in *; auto; contradiction.
    + (* Modify *)
      destruct (others _ _ _) eqn:C; [|discriminate E].
      rewrite others_spec in C.
      assert (K : forall p', (p' = Owned v o \/ p' = Locked (Modify v) o) ->
        forall u q, u <> t -> nth_error (tasks s) u = Some q -> task_ok s u q ->
         compat (Handle (Modify v) o) q -> compat q (Handle (Modify v) o) ->
         compat p' q /\ compat q p').
      { intros p' Hp' u q Nu Hu Hq (C1 & C2 & C3) (D1 & D2 & D3). specialize (C u q Nu Hu).
        assert (W : has_write o q = false).
        { destruct (has_write o q) eqn:X; auto; apply write_lock in X; congruence. }
        assert (P : holds_parent q = false) by (apply C1; reflexivity).
        assert (P' : holds_parent_excl q = false).
        { destruct (holds_parent_excl q) eqn:X; auto; apply excl_parent in X; congruence. }
        destruct Hp' as [-> | ->]; split; (split; [|split]); cbn; try discriminate; auto;
          try congruence.
        all: try (intros o' H; apply Nat.eqb_eq in H; subst; congruence).
        all: try (intros o' H; destruct (Nat.eqb_spec o' o); auto; subst; try congruence;
          destruct q; cbn in *; discriminate). }
      cbn in T. destruct (ptr s) as [|o'|] eqn:Ep.
      * refine (inv_goto _ _ _ _ _ I Hp E _ (K _ _)); auto. cbn. destruct T as [T|[T _]]; auto. congruence.
      * refine (inv_goto _ _ _ _ _ I Hp E _ (K _ _)); auto. cbn. destruct T as [[T _]|T]; auto. congruence.
      * destruct T as [[T _]|[T _]]; congruence.
    + (* Flush *)
      destruct (others _ _ _) eqn:C; [|discriminate E].
      rewrite others_spec in C.
      refine (inv_goto _ _ _ _ _ I Hp E _ _); [exact T|].
      intros u q Nu Hu Hq (C1 & C2 & C3) (D1 & D2 & D3). specialize (C u q Nu Hu).
      assert (W : has_write o q = false).
      { destruct (has_write o q) eqn:X; auto; apply write_lock in X; congruence. }
      assert (P : holds_parent q = false) by (apply C1; reflexivity).
      assert (P' : holds_parent_excl q = false).
      { destruct (holds_parent_excl q) eqn:X; auto; apply excl_parent in X; congruence. }
      split; (split; [|split]); cbn; try discriminate; auto; try congruence.
      all: try (intros o' H; apply Nat.eqb_eq in H; subst; congruence).
      all: try (intros o' H; destruct (Nat.eqb_spec o' o); auto; subst; try congruence;
        destruct q; cbn in *; discriminate).
    + (* Rewrite *)
      destruct (others _ _ _) eqn:C; [|discriminate E].
      inversion E; subst; clear E. cbn in T. destruct T as (T1 & T2 & T3).
      assert (V : nth o (objs s) 0 = disk s) by (now apply nth_error_nth).
      apply (inv_step s t (Handle Rewrite o)); [exact I|exact Hp|..].
      * exact Logic.I.
      * intros u q Nu Hu Hq C1 C2.
        apply (task_ok_outside s _ Disk _ _ (log s) (Wrote None)); auto.
        { apply (not_excl _ _ C1); auto. }
        { intros v' o' [-> | ->]; cbn in Hq; destruct Hq as [Hq _]; congruence. }
      * bc.
      * intros c H. inversion H; subst. rewrite V. auto.
      * discriminate.
      * pose proof (i_found _ I) as F. unfold found in *; cbn. rewrite T1 in F.
        congruence.
      * exact (i_saw _ I).
    + (* Purge *)
      destruct (alone s t o) eqn:A; [|discriminate E].
      inversion E; subst; clear E. apply andb_true_iff in A. destruct A as [A _].
      rewrite others_spec in A.
      apply (inv_step s t (Handle Purge o)); [exact I|exact Hp|..].
      * exact Logic.I.
      * intros u q Nu Hu Hq C1 C2.
        apply (task_ok_outside s _ Gone None (disk s) _ (Wrote None)); auto.
        { apply (not_excl _ _ C1); auto. }
        { intros v o' [-> | ->]; cbn in Hq; destruct Hq as [Hq _];
          specialize (A u _ Nu Hu); cbn in A; apply Nat.eqb_neq in A;
          cbn in T; destruct T as [[T _]|[T _]]; congruence. }
      * bc.
      * discriminate.
      * discriminate.
      * reflexivity.
      * apply saw_cons; [exact (i_saw _ I)|]. discriminate.
  - (* Locked *)
    destruct k; cbn in T; [|refine (inv_goto _ _ _ _ _ I Hp E _ _); [exact T|bc]..|contradiction].
    + refine (inv_goto _ _ _ _ _ I Hp E _ _); [|bc].
      destruct T as [T1 T2]. cbn. split; [now apply current_lt|].
      rewrite (current_found _ _ T2). now apply now_during.
  - (* Unlocked *)
    destruct k; cbn in T; try contradiction; try discriminate E.
    + (* Modify *)
      destruct (alone s t o) eqn:A; [|discriminate E].
      inversion E; subst; clear E. apply andb_true_iff in A. destruct A as [A _].
      rewrite others_spec in A. destruct T as (T1 & T2 & T3).
      assert (L := val_lt _ _ _ T2).
      apply (inv_step s t (Unlocked (Modify v) o)); [exact I|exact Hp|..].
      * cbn. split; auto.
      * intros u q Nu Hu Hq C1 C2.
        apply (task_ok_outside s _ (Mem o) _ (disk s) (log s) (Wrote None)); auto.
        { apply (not_excl _ _ C1); auto. }
        { intros v' o' [-> | ->]; cbn in Hq; destruct Hq as [Hq _]; congruence. }
      * intros u q Nu Hu Hq C1 C2.
        assert (P := not_excl _ _ C1 eq_refl). destruct P as [P1 P2].
        specialize (A u q Nu Hu).
        assert (W : has_lock o q = false) by (destruct q; cbn in *; auto).
        assert (W2 : has_write o q = false).
        { destruct (has_write o q) eqn:X; auto; apply write_lock in X; congruence. }
        split; (split; [|split]); cbn; auto; try discriminate; try congruence.
        all: try (intros o' H; apply Nat.eqb_eq in H; subst; congruence).
        all: try (intros o' H; destruct (Nat.eqb_spec o' o); auto; subst; try congruence;
          destruct q; cbn in *; discriminate).
      * rewrite T3. discriminate.
      * intros o' H. inversion H; subst; auto.
      * pose proof (i_found _ I) as F. unfold found in *; cbn. rewrite T1 in F.
        unfold val in T2. congruence.
      * exact (i_saw _ I).
    + (* Flush *)
      destruct (alone s t o) eqn:A; [|discriminate E].
      inversion E; subst; clear E. apply andb_true_iff in A. destruct A as [A _].
      rewrite others_spec in A. destruct T as (T1 & T2).
      assert (V : nth_error (objs s) o = Some (nth o (objs s) 0))
        by (now apply nth_error_nth').
      apply (inv_step s t (Unlocked Flush o)); [exact I|exact Hp|..].
      * exact Logic.I.
      * intros u q Nu Hu Hq C1 C2.
        apply (task_ok_outside s _ Disk _ _ (log s) (Wrote None)); auto.
        { apply (not_excl _ _ C1); auto. }
        { intros v' o' [-> | ->]; cbn in Hq; destruct Hq as [Hq _];
          specialize (A u _ Nu Hu); cbn in A; apply Nat.eqb_neq in A; congruence. }
      * bc.
      * intros c H. inversion H; subst. auto.
      * discriminate.
      * pose proof (i_found _ I) as F. unfold found in *; cbn. rewrite T1 in F.
        congruence.
      * exact (i_saw _ I).
  - (* Owned *)
    refine (inv_goto _ _ _ _ _ I Hp E _ _); [exact T|bc].
  - (* Inside *)
    destruct k; cbn in T; try contradiction; try discriminate E.
    + destruct T as [T1 T2]. refine (inv_goto_log _ _ _ _ _ _ I Hp E T2 _ _); [|bc].
      inversion E; subst; exact T1.
    + inversion E; subst; clear E. destruct T as [T1 T2].
      apply (inv_step s t (Inside (Modify v) o)); [exact I|exact Hp|..].
      * unfold task_ok, dirty; cbn. rewrite obj_length. auto.
      * intros u q Nu Hu Hq (C1 & C2 & C3) (D1 & D2 & D3).
        assert (V : forall o', has_lock o' q = true ->
          nth_error (set_obj o v (objs s)) o' = nth_error (objs s) o').
        { intros o' H. apply obj_other. intros ->.
          rewrite (C2 o) in H; [discriminate|]. cbn. apply Nat.eqb_refl. }
        destruct q as [k|k|[]|[]|[]| |[]| | |]; cbn in *; auto;
          try (destruct k; cbn in *; auto);
          unfold current, popped, dirty in *; cbn in *;
          rewrite ?obj_length; unfold val in *; cbn in *;
          rewrite ?V by apply Nat.eqb_refl;
          try (intuition (auto using during_cons); congruence).
      * bc.
      * intros c H. destruct (i_cache _ I c H) as [H1 _]. congruence.
      * intros o' H. rewrite obj_length. apply (i_mem _ I); auto.
      * unfold found; cbn. rewrite T1. now apply obj_same.
      * apply saw_cons; [exact (i_saw _ I)|]. discriminate.
  - (* Written *)
    refine (inv_goto _ _ _ _ _ I Hp E _ _); [exact (proj2 T)|bc].
  - (* Tail *)
    refine (inv_goto _ _ _ _ _ I Hp E _ _); [exact Logic.I|bc].
Qed.

Lemma inv_step_event : forall e s s', Inv s -> step e s = Next s' -> Inv s'.
Proof.
  intros [t|t|] s s' I E; cbn in E.
  - destruct (nth_error (tasks s) t) as [p|] eqn:Hp; [|discriminate].
    now apply (inv_advance s t p).
  - destruct (nth_error (tasks s) t) as [p|] eqn:Hp; [|discriminate].
    pose proof (i_task _ I _ _ Hp) as T.
    destruct p as [k|k|k o|k o|k o|v o|k o|o|o|];
      try (now apply (inv_advance s t _ s' I Hp)).
    + destruct k; try (now apply (inv_advance s t _ s' I Hp)).
      cbn in E, T. destruct T as [T1 T2].
      refine (inv_goto_log _ _ _ _ _ _ I Hp E T2 _ _); [exact Logic.I|bc].
    + refine (inv_goto _ _ _ _ _ I Hp E _ _); [exact Logic.I|bc].
  - inversion E; subst; clear E. destruct I as [I1 I2 I3 I4 I5 I6].
    constructor; cbn; auto; try discriminate.
    intros t p Hp. specialize (I1 t p Hp).
    destruct p as [k|k|[]|[]|[]| |[]| | |]; cbn in *; auto;
      unfold current, popped, dirty, val in *; cbn in *; intuition auto.
Qed.

Lemma inv_fresh : forall ks v, Inv (fresh ks v).
Proof.
  intros ks v.
  assert (S : forall t p, nth_error (map Start ks) t = Some p -> exists k, p = Start k).
  { intros t p H. apply nth_error_In, in_map_iff in H. destruct H as (k & <- & _). eauto. }
  constructor; cbn; try discriminate; auto.
  - intros t p H. destruct (S t p H) as [k ->]. exact I.
  - intros t u p q _ Hp Hq. destruct (S t p Hp) as [k ->].
    destruct (S u q Hq) as [k' ->]. split; [|split]; cbn; discriminate.
  - intros a t x b H. destruct a as [|y a]; cbn in H; inversion H.
    destruct a; discriminate.
Qed.

Lemma inv_run : forall es s s', Inv s -> run es s = Some s' -> Inv s'.
Proof.
  induction es as [|e es IH]; intros s s' I H; cbn in H.
  - now inversion H; subst.
  - destruct (step e s) as [| |s1] eqn:E; try discriminate; eauto.
    apply (IH s1); auto. eapply inv_step_event; eauto.
Qed.

(** ** Nothing is lost *)
Definition pending (v : Z) (p : phase) : Prop :=
  match p with
  | Start (Modify w) | Parent (Modify w) | Handle (Modify w) _
  | Locked (Modify w) _ | Unlocked (Modify w) _ | Inside (Modify w) _
  | Owned w _ => w = v
  | _ => False
  end.

Definition accounted (s : st) (t : nat) (v : Z) : Prop :=
  (exists p, nth_error (tasks s) t = Some p /\ pending v p) \/
  In (Wrote (Some v)) (log s) \/ In (Wrote None) (log s).

Lemma none_deleted : forall h v, contents h = None -> In (Wrote (Some v)) h ->
  In (Wrote None) h.
Proof.
  induction h as [|e h IH]; cbn; intros v H Hi; [contradiction|].
  destruct e as [u|x|u x].
  - right. destruct Hi as [D|Hi]; [discriminate|eauto].
  - subst x. auto.
  - right. destruct Hi as [D|Hi]; [discriminate|eauto].
Qed.

Lemma step_shape : forall e s s', step e s = Next s' ->
  (exists l, log s' = l ++ log s /\ (length l <= 1)%nat) /\
  (tasks s' = tasks s \/
   exists t p p', nth_error (tasks s) t = Some p /\
     tasks s' = set_task t p' (tasks s) /\
     (forall v, pending v p ->
        pending v p' \/ In (Wrote (Some v)) (log s') \/
        (ptr s = Gone /\ p = Parent (Modify v)))).
Proof.
  intros e s s' E. set (GP := ptr s = Gone) in *.
  assert (A : forall t p, nth_error (tasks s) t = Some p ->
     (advance s t p = Next s' \/ advance_prompt s t p = Next s') ->
     (exists l, log s' = l ++ log s /\ (length l <= 1)%nat) /\
     exists p', tasks s' = set_task t p' (tasks s) /\
     (forall v, pending v p ->
        pending v p' \/ In (Wrote (Some v)) (log s') \/
        (GP /\ p = Parent (Modify v)))).
  { intros t p Hp H.
    destruct H as [H|H]; destruct p as [[]|[]|[]|[]|[]| |[]| | |];
      cbn in H; unfold do_get, do_pop, goto, goto_log in H; try discriminate H;
      repeat match type of H with
      | context [if ?b then _ else _] => destruct b eqn:?
      | context [match ptr s with _ => _ end] => destruct (ptr s) eqn:?
      | context [match cache s with _ => _ end] => destruct (cache s) eqn:?
      end; try discriminate H; inversion H; subst s'; cbn; (split;
      [first [ exists []; split; [reflexivity|cbn; auto]
             | eexists (_ :: []); split; [reflexivity|cbn; auto] ]
      | eexists; split; [reflexivity|]; intros w Hw; cbn in Hw |- *;
        first [ contradiction | left; exact Hw
              | right; left; left; congruence
              | right; right; split; [first [assumption|reflexivity]|congruence] ] ]). }
  destruct e as [t|t|]; cbn in E.
  - destruct (nth_error (tasks s) t) as [p|] eqn:Hp; [|discriminate].
    destruct (A t p Hp (or_introl E)) as (L & p' & H). split; auto.
    right. exists t, p, p'. tauto.
  - destruct (nth_error (tasks s) t) as [p|] eqn:Hp; [|discriminate].
    destruct (A t p Hp (or_intror E)) as (L & p' & H). split; auto.
    right. exists t, p, p'. tauto.
  - inversion E; subst; cbn. split; [exists []; cbn; auto|auto].
Qed.

Lemma accounted_step : forall e s s' t v w, Inv s -> In (Wrote (Some w)) (log s) ->
  step e s = Next s' -> accounted s t v -> accounted s' t v.
Proof.
  intros e s s' t v w I W E A.
  destruct (step_shape _ _ _ E) as [[l [Hl _]] H].
  destruct A as [(p & Hp & Hv)|[A|A]].
  2, 3: right; rewrite Hl; rewrite !in_app_iff; auto.
  destruct H as [H|(u & q & q' & Hu & Ht & Hpend)].
  - left. exists p. rewrite H. auto.
  - destruct (Nat.eq_dec t u) as [->|N].
    + assert (q = p) by congruence. subst q.
      destruct (Hpend v Hv) as [B|[B|[B1 B2]]].
      * left. exists q'. rewrite Ht. split; auto. eapply set_same; eauto.
      * right. auto.
      * right. right. rewrite Hl. apply in_app_iff. right.
        apply (none_deleted _ w); auto.
        rewrite <- (i_found _ I). unfold found. now rewrite B1.
    + left. exists p. rewrite Ht, set_other by exact N. auto.
Qed.

Lemma accounted_run : forall es s s' t v w, Inv s -> In (Wrote (Some w)) (log s) ->
  run es s = Some s' -> accounted s t v -> accounted s' t v.
Proof.
  induction es as [|e es IH]; intros s s' t v w I W H A; cbn in H.
  - now inversion H; subst.
  - destruct (step e s) as [| |s1] eqn:E; try discriminate; eauto.
    apply (IH s1 s' t v w); auto.
    + eapply inv_step_event; eauto.
    + destruct (step_shape _ _ _ E) as [[l [-> _]] _]. apply in_app_iff; auto.
    + eapply accounted_step; eauto.
Qed.

(** ** Panics *)
Definition no_tail (s : st) : Prop :=
  forall t p, nth_error (tasks s) t = Some p ->
    match p with
    | Tail _ | Start Purge | Parent Purge | Handle Purge _ => False
    | _ => True
    end.

Lemma alone_true : forall s t k o, Inv s -> no_tail s ->
  nth_error (tasks s) t = Some (Unlocked k o) -> alone s t o = true.
Proof.
  intros s t k o I NT Hp. pose proof (i_task _ I _ _ Hp) as T. unfold alone.
  apply andb_true_iff. split.
  - apply others_spec. intros u q Nu Hu.
    assert (C := i_compat _ I t u _ _ (not_eq_sym Nu) Hp Hu).
    assert (P := proj2 (not_excl _ _ C ltac:(destruct k; cbn in *; auto; contradiction))).
    destruct C as (_ & _ & C). specialize (C o (Nat.eqb_refl o)).
    specialize (NT u q Hu). destruct q; cbn in *; auto; try discriminate; contradiction.
  - destruct (cache s) as [c|] eqn:E; auto.
    destruct (i_cache _ I c E) as [D _].
    destruct k; cbn in T; try contradiction.
    + destruct T as (_ & _ & T). congruence.
    + destruct T as (T & _). congruence.
Qed.

Lemma prompt_step : forall e s, Inv s -> no_tail s -> prompt e ->
  match step e s with
  | Panic => False | Blocked => True | Next s' => no_tail s' end.
Proof.
  intros e s I NT Pe. destruct e as [t|t|]; cbn in Pe; [contradiction| |].
  - cbn. destruct (nth_error (tasks s) t) as [p|] eqn:Hp; [|auto].
    pose proof (NT t p Hp) as Np. pose proof (i_task _ I _ _ Hp) as T.
    assert (G : forall p' pt ca di ob lo,
      match p' with
      | Tail _ | Start Purge | Parent Purge | Handle Purge _ => False
      | _ => True end ->
      no_tail (mkSt (set_task t p' (tasks s)) pt ca di ob lo)).
    { intros p' pt ca di ob lo H u q Hu. cbn in Hu.
      destruct (Nat.eq_dec u t) as [->|Nu].
      - rewrite (set_same _ _ _ _ Hp) in Hu. now inversion Hu; subst.
      - rewrite set_other in Hu by exact Nu. now apply (NT u). }
    assert (RW : forall o, p = Handle Rewrite o ->
      others (has_write o) t (tasks s) = true).
    { intros o ->. apply others_spec. intros u q Nu Hu.
      assert (C := i_compat _ I t u _ _ (not_eq_sym Nu) Hp Hu).
      assert (P := proj2 (not_excl _ _ C eq_refl)).
      cbn in T. destruct T as (T & _). pose proof (i_task _ I _ _ Hu) as Q.
      destruct q as [k|k|k o'|k o'|k o'|v o'|[] o'|o'|o'|]; cbn in *; auto;
        try discriminate; try contradiction;
        destruct Q as [Q _]; congruence. }
    destruct p as [[]|[]|[]|[]|[]| |[]| | |]; cbn in *; try contradiction; auto;
      try rewrite (RW _ eq_refl);
      unfold do_get, do_pop, goto, goto_log;
      repeat match goal with
      | |- context [others ?f ?a ?b] => destruct (others f a b) eqn:?
      | |- context [match ptr s with _ => _ end] => destruct (ptr s) eqn:?
      | |- context [match cache s with _ => _ end] => destruct (cache s) eqn:?
      | |- context [alone s t ?o] =>
          rewrite (alone_true s t _ o I NT Hp)
      end; cbn; auto.
  - cbn. intros t p Hp. now apply (NT t).
Qed.

(** ** Progress *)
Lemma run_tasks_inv : forall s, Inv s ->
  (exists t p, nth_error (tasks s) t = Some p /\ p <> Done) ->
  exists t, step (Run t) s <> Blocked.
Proof.
  intros s I (t & p & Hp & Np).
  (* someone who can always go on *)
  set (free := fun q => match q with
    | Start _ | Handle Read _ | Handle (Modify _) _ | Handle Flush _ | Done => false
    | _ => true end).
  assert (F : forall u q, nth_error (tasks s) u = Some q -> free q = true ->
    step (Run u) s <> Blocked).
  { intros u q Hu Fq. cbn. rewrite Hu. pose proof (i_task _ I _ _ Hu) as T.
    destruct q as [[]|[]|[]|[]|[]| |[]| | |]; cbn in *; try discriminate Fq;
      try contradiction; unfold do_get, do_pop, goto, goto_log;
      repeat match goal with
      | |- context [match ptr s with _ => _ end] => destruct (ptr s)
      | |- context [match cache s with _ => _ end] => destruct (cache s)
      | |- context [alone s u ?o] => destruct (alone s u o)
      | |- context [others ?f ?a ?b] => destruct (others f a b)
      end; discriminate. }
  destruct (forallb (fun q => negb (free q)) (tasks s)) eqn:A.
  - rewrite forallb_nth in A.
    assert (NL : forall u q o, nth_error (tasks s) u = Some q ->
      has_lock o q = false /\ has_write o q = false).
    { intros u q o Hu. specialize (A u q Hu).
      destruct q as [[]|[]|[]|[]|[]| |[]| | |]; cbn in *; auto; discriminate. }
    assert (LK : forall u o, others (has_lock o) u (tasks s) = true).
    { intros u o. apply others_spec. intros w q _ Hw. apply (NL w q o Hw). }
    assert (WR : forall u o, others (has_write o) u (tasks s) = true).
    { intros u o. apply others_spec. intros w q _ Hw. apply (NL w q o Hw). }
    (* someone who waits for the node's lock can have it *)
    destruct (forallb (fun q => negb (holds_parent q)) (tasks s)) eqn:B.
    + rewrite forallb_nth in B. exists t. cbn. rewrite Hp.
      pose proof (A t p Hp) as Ap. pose proof (B t p Hp) as Bp.
      destruct p as [k|k|k o|k o|k o|v o|k o|o|o|]; cbn in *; try discriminate;
        try congruence.
      assert (X1 : others holds_parent t (tasks s) = true).
      { apply others_spec. intros w q _ Hw. apply (B w q Hw). }
      assert (X2 : others holds_parent_excl t (tasks s) = true).
      { apply others_spec. intros w q _ Hw. specialize (B w q Hw).
        destruct (holds_parent_excl q) eqn:Y; auto. apply excl_parent in Y. congruence. }
      destruct k; cbn; rewrite ?X1, ?X2; discriminate.
    + assert (exists u q, nth_error (tasks s) u = Some q /\ holds_parent q = true)
        as (u & q & Hu & Hq).
      { apply not_true_iff_false in B.
        destruct (existsb holds_parent (tasks s)) eqn:X.
        - apply existsb_exists in X. destruct X as (q & Hi & Hq).
          apply In_nth_error in Hi. destruct Hi as [u Hu]. eauto.
        - exfalso. apply B. apply forallb_forall. intros q Hi. apply negb_true_iff.
          destruct (holds_parent q) eqn:Y; auto.
          rewrite <- X. symmetry. apply existsb_exists. eauto. }
      exists u. cbn. rewrite Hu. specialize (A u q Hu).
      destruct q as [k|k|[]|k o|k o|v o|k o|o|o|]; cbn in *; try discriminate;
        rewrite ?LK, ?WR; try discriminate.
      destruct (ptr s); discriminate.
  - assert (exists u q, nth_error (tasks s) u = Some q /\ free q = true)
      as (u & q & Hu & Hq).
    { destruct (existsb free (tasks s)) eqn:X.
      - apply existsb_exists in X. destruct X as (q & Hi & Hq).
        apply In_nth_error in Hi. destruct Hi as [u Hu]. eauto.
      - exfalso. apply not_true_iff_false in A. apply A.
        apply forallb_forall. intros q Hi. apply negb_true_iff.
        destruct (free q) eqn:Y; auto.
        rewrite <- X. symmetry. apply existsb_exists. eauto. }
    exists u. eauto.
Qed.

(** How far a task is from its end. *)
Definition rank (p : phase) : nat :=
  match p with
  | Start _ => 9 | Parent _ => 8 | Handle _ _ => 7 | Locked _ _ => 6
  | Unlocked _ _ => 5 | Owned _ _ => 4 | Inside _ _ => 3 | Written _ => 2
  | Tail _ => 1 | Done => 0
  end%nat.

Definition work (s : st) : nat := list_sum (map rank (tasks s)).

Lemma work_set : forall ps t p q, nth_error ps t = Some p ->
  (rank q < rank p)%nat ->
  (list_sum (map rank (set_task t q ps)) < list_sum (map rank ps))%nat.
Proof.
  induction ps as [|x ps IH]; intros [|t] p q H R; cbn in *; try discriminate.
  - inversion H; subst. unfold list_sum in *. lia.
  - specialize (IH t p q H R). unfold list_sum in *. lia.
Qed.

Lemma work_step : forall u s s', step (Run u) s = Next s' -> (work s' < work s)%nat.
Proof.
  intros u s s' E. cbn in E.
  destruct (nth_error (tasks s) u) as [p|] eqn:Hp; [|discriminate]. unfold work.
  destruct p as [[]|[]|[]|[]|[]| |[]| | |]; cbn in E;
    unfold do_get, do_pop, goto, goto_log in E; try discriminate E;
    repeat match type of E with
    | context [if ?b then _ else _] => destruct b
    | context [match ptr s with _ => _ end] => destruct (ptr s)
    | context [match cache s with _ => _ end] => destruct (cache s)
    end; try discriminate E; inversion E; subst; cbn [tasks];
    (eapply work_set; [exact Hp|cbn; lia]).
Qed.

(** * Theorems *)

(** Whatever the tasks are and however they are interleaved, with the cache
    dropping the node at any moment: every read shows what the node contained
    at some moment during the read. *)
Theorem C99_reads : forall ks v es s a t x b,
  run es (fresh ks v) = Some s ->
  log s = a ++ Saw t x :: b ->
  contained_during b t x.
Proof.
  intros ks v es s a t x b H L.
  apply (i_saw _ (inv_run _ _ _ (inv_fresh ks v) H) a t x b L).
Qed.

(** Whoever looks next finds what was written last; and every change whose
    task has finished was made, unless the node has been deleted. *)
Theorem C99_kept : forall ks v es s,
  run es (fresh ks v) = Some s ->
  found s = contents (log s) /\
  forall t w, nth_error ks t = Some (Modify w) ->
    nth_error (tasks s) t = Some Done ->
    In (Wrote (Some w)) (log s) \/ In (Wrote None) (log s).
Proof.
  intros ks v es s H. split.
  - apply (i_found _ (inv_run _ _ _ (inv_fresh ks v) H)).
  - intros t w Hk Hd.
    assert (A : accounted (fresh ks v) t w).
    { left. exists (Start (Modify w)). split; [|reflexivity].
      cbn. rewrite nth_error_map, Hk. reflexivity. }
    destruct (accounted_run es _ _ t w v (inv_fresh ks v) (or_introl eq_refl) H A)
      as [(p & Hp & Hv)|B]; auto.
    rewrite Hd in Hp. inversion Hp; subst. contradiction.
Qed.

(** Nobody waits forever: unless all tasks are done, one of them can go on, and
    every step of a task brings it nearer to its end. *)
Theorem C99_progress : forall ks v es s,
  run es (fresh ks v) = Some s ->
  (exists t p, nth_error (tasks s) t = Some p /\ p <> Done) ->
  exists t, step (Run t) s <> Blocked.
Proof.
  intros ks v es s H. apply run_tasks_inv.
  exact (inv_run _ _ _ (inv_fresh ks v) H).
Qed.

(** So, wherever a run has got to, it can go on until all tasks are done,
    unless one of them panics. *)
Theorem C99_finishes : forall ks v es s,
  run es (fresh ks v) = Some s ->
  exists es', forall s', run es' s = Some s' ->
    forall t p, nth_error (tasks s') t = Some p -> p = Done.
Proof.
  intros ks v es s H. pose proof (inv_run _ _ _ (inv_fresh ks v) H) as I. clear H.
  remember (work s) as n eqn:En. revert s I En.
  induction n as [n IH] using lt_wf_ind; intros s I ->.
  destruct (existsb (fun p => negb (Nat.eqb (rank p) 0)) (tasks s)) eqn:X.
  - apply existsb_exists in X. destruct X as (p & Hi & Hp).
    apply In_nth_error in Hi. destruct Hi as [t Ht].
    destruct (run_tasks_inv s I) as [u Hu].
    { exists t, p. split; auto. intros ->. discriminate. }
    destruct (step (Run u) s) as [| |s1] eqn:E; [congruence| |].
    + exists [Run u]. intros s'. cbn [run]. rewrite E. discriminate.
    + destruct (IH (work s1)) with (s := s1) as [es' He]; auto.
      * eapply work_step; eauto.
      * eapply inv_step_event; eauto.
      * exists (Run u :: es'). intros s'. cbn [run]. rewrite E. apply He.
  - exists []. intros s' Hs t p Ht. inversion Hs; subst. clear Hs.
    assert (R : rank p = 0%nat).
    { destruct (Nat.eqb_spec (rank p) 0) as [|N]; auto. exfalso.
      apply not_true_iff_false in X. apply X. apply existsb_exists.
      exists p. split; [eapply nth_error_In; eauto|].
      apply negb_true_iff. now apply Nat.eqb_neq. }
    destruct p; cbn in R; congruence.
Qed.

(** The full claim would be: no run panics.  It does not hold (see below).
    What holds: no run panics in which threads are not interrupted while they
    drop a guard, and in which the node is not deleted as a part of a range. *)
Theorem C99_no_panic_partial : forall ks v es,
  ~ In Purge ks -> Forall prompt es ->
  exists s, run es (fresh ks v) = Some s.
Proof.
  intros ks v es NP P.
  assert (NT : no_tail (fresh ks v)).
  { intros t p H. cbn in H. apply nth_error_In, in_map_iff in H.
    destruct H as (k & <- & Hk). destruct k; auto. }
  pose proof (inv_fresh ks v) as I. revert NT I. generalize (fresh ks v).
  induction P as [|e es Pe P IH]; intros s NT I; cbn; [eauto|].
  pose proof (prompt_step e s I NT Pe) as G.
  destruct (step e s) as [| |s'] eqn:E; [eauto|contradiction|].
  apply IH; auto. eapply inv_step_event; eauto.
Qed.

(** A task changes the node while another reads it.  The reader's thread is
    interrupted after it has unlocked the node and before it has dropped its
    handle: the change panics. *)
Theorem C99_change_panics_refuted : exists es,
  run es (fresh [Read; Modify 2] 1) = None.
Proof.
  exists [Run 0; Run 0; Run 0; Run 0; Run 1; Run 1; Run 1; Run 0; Run 1; Run 1; Run 1]%nat.
  reflexivity.
Qed.

(** The same for a flush of a dirty node. *)
Theorem C99_flush_panics_refuted : exists es,
  run es (fresh [Modify 2; Read; Flush] 1) = None.
Proof.
  exists [Prompt 0; Prompt 0; Prompt 0; Prompt 0; Prompt 0; Prompt 0; Prompt 0; Prompt 0;
          Run 1; Run 1; Run 1; Run 1; Run 2; Run 2; Run 1; Run 2; Run 2; Run 2]%nat.
  reflexivity.
Qed.

(** Deleting a range takes leaves without waiting for their readers: it
    panics if a reader is inside, whether or not threads are interrupted. *)
Theorem C99_purge_panics_refuted : exists es,
  Forall prompt es /\ run es (fresh [Read; Purge] 1) = None.
Proof.
  exists [Prompt 0; Prompt 0; Prompt 0; Prompt 0; Prompt 1; Prompt 1; Prompt 1]%nat.
  split; [repeat constructor|reflexivity].
Qed.

(** * Examples *)

(** Two readers, two writers and a flush, with the cache dropping the node
    while a reader is inside: everyone finishes. *)
Example C99_ex :
  let ks := [Read; Modify 2; Flush; Read; Modify 3] in
  let es := [Run 0; Run 0; Run 0; Run 0; Evict; Run 1; Run 1; Run 1; Run 1; Run 1;
             Run 1; Run 3; Run 3; Run 1; Run 1; Run 3; Run 1; Run 0; Run 0; Run 3;
             Run 3; Run 2; Run 2; Run 2; Run 3; Run 3; Run 2; Run 2; Run 2;
             Run 4; Run 4; Run 4; Run 4; Run 4; Run 4; Run 4; Run 4; Run 4]%nat in
  exists s, run es (fresh ks 1) = Some s /\
    tasks s = [Done; Done; Done; Done; Done] /\ found s = Some 3 /\
    log s = [Wrote (Some 3); Began 4%nat; Began 2%nat; Saw 3%nat (Some 2);
             Saw 0%nat (Some 1); Wrote (Some 2); Began 3%nat; Began 1%nat;
             Began 0%nat; Wrote (Some 1)].
Proof. eexists. split; [vm_compute; reflexivity|]. repeat split. Qed.

(** The cleaner moves the node while a reader is inside; then it is changed. *)
Example C99_ex_rewrite :
  exists s, run [Run 0; Run 0; Run 0; Run 0; Run 1; Run 1; Run 1; Run 2; Run 2; Run 2;
                 Run 0; Run 0; Run 2; Run 2; Run 2; Run 2; Run 2; Run 2; Run 2]%nat
                (fresh [Read; Rewrite; Modify 5] 1) = Some s /\
    tasks s = [Done; Done; Done] /\ found s = Some 5 /\ objs s = [5].
Proof. eexists. split; [vm_compute; reflexivity|]. repeat split. Qed.

(** A run in which no thread is interrupted while it drops a guard. *)
Example C99_ex_prompt :
  Forall prompt [Prompt 0; Prompt 1; Evict]%nat /\ ~ In Purge [Read; Modify 2; Flush; Rewrite].
Proof.
  split; [repeat constructor|].
  intros [H|[H|[H|[H|[]]]]]; discriminate.
Qed.

Print Assumptions C99_reads.
Print Assumptions C99_kept.
Print Assumptions C99_progress.
Print Assumptions C99_finishes.
Print Assumptions C99_no_panic_partial.
Print Assumptions C99_change_panics_refuted.
Print Assumptions C99_flush_panics_refuted.
Print Assumptions C99_purge_panics_refuted.
