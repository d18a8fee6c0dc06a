(** C17: crashes. *)
From Verif Require Import Common ZMap FSM_Model FSM_Spec FSM_Proofs FSM_Inv FSM_Props Crash_Model Crash_Proofs.

(** ** What is promised *)

(** Every extent that the trees refer to holds what was written there. *)
Definition intact (p : pool) : Prop :=
  forall lba len id l, In ((lba, len), id) (live p) -> lba <= l < lba + len -> data p l = Some id.

(** Space in use is exactly what the trees refer to. *)
Definition accounted (p : pool) : Prop := used (cl p) = Some (sum_len (map fst (live p))).

(** What was on the disks before the last [sync_all] survives a crash. *)
Definition disks_after_crash (p : pool) (d : Z -> option Z) (changed : list extent) : Prop :=
  forall l, (forall a n, In (a, n) changed -> ~ a <= l < a + n) -> d l = data p l.

(** The pool's obligations: the steps of a sync come in order; only what is
    referred to is freed; transactions are not running during a sync.  A crash
    may come at any time once the first label is there. *)
Definition plegal (v : vdev) (p : pool) (op : pop) : Prop :=
  match op with
  | PWrite space txg => ph p = Idle /\ 0 < space < 2^32 /\ 0 <= txg < TXG_MAX
  | PFree lba len => ph p = Idle /\ In (lba, len) (map fst (live p))
  | PSm0 => ph p = Idle
  | PLabel0 => ph p = Sm0Done
  | PSm1 => ph p = Label0Done
  | PLabel1 => ph p = Sm1Done
  | PAdvance => ph p = Label1Done
  | PCrash d _ => (label0 p <> None \/ label1 p <> None) /\ disks_after_crash p d (vol p)
  | PCrashSm0 _ d => ph p = Idle /\ (label0 p <> None \/ label1 p <> None) /\ disks_after_crash p d (padding v (cl p) ++ vol p)
  end.

(** The crash is not between the first write to space map 0 and the end of the
    write of label 0. *)
Definition outside_window (p : pool) (op : pop) : Prop :=
  match op with PCrash _ _ => ph p <> Sm0Done | PCrashSm0 _ _ => False | _ => True end.

(** [preach Q p com]: [p] is reached by a legal history whose steps satisfy [Q];
    the trees referred to [com] when label 0 was last completely written. *)
Inductive preach (v : vdev) (Q : pool -> pop -> Prop) : pool -> option (list item) -> Prop :=
| pr_init : preach v Q (pool_create v) None
| pr_step p com op p' : preach v Q p com -> plegal v p op -> Q p op -> pdo v p op = Some p' ->
    preach v Q p' (match op with PLabel0 => Some (live p) | _ => com end).

(** The promise as a whole. *)
Definition crash_consistent (v : vdev) (Q : pool -> pop -> Prop) : Prop :=
  forall p com, preach v Q p com ->
    intact p /\ accounted p /\ ForallOrdPairs disjoint (map fst (live p)) /\
    forall op, plegal v p op -> Q p op -> exists p', pdo v p op = Some p' /\
      match op with PCrash _ _ | PCrashSm0 _ _ => Some (live p') = com | _ => True end.

(** ** Proofs *)

Section Proofs.
Context (v : vdev) (G : geometry v).

Lemma inv_used c live cl tr : Inv v c live cl tr -> used c = Some (sum_len live).
Proof.
  intros R. pose proof (i_live _ _ _ _ _ R) as L. pose proof (i_tot _ _ _ _ _ R) as T. unfold used.
  assert (U : forall z, 0 <= z < v_zones v -> use_v (view (fs c) z) = lsum v z live).
  { intros z Hz. eapply zone_inv_use; [apply (live_pos v live L)|]. now apply (i_zone _ _ _ _ _ R). }
  rewrite in_use_total_view; [|apply R|].
  - rewrite T. f_equal. rewrite (zsum_ext _ _ _ (fun z => lsum v z live)) by exact U.
    apply lsum_total. intros e He. destruct (l_in v live L e He) as (_ & z & Hz & Hi & _). eauto.
  - rewrite T. intros z Hz. rewrite U by auto. apply lsum_nonneg. apply (live_pos v live L).
Qed.

Lemma crash_vol p d ch : disks_after_crash p d ch -> forall y, (forall e, In e ch -> within y e = false) -> d y = data p y.
Proof.
  intros H y Y. apply H. intros a n Hin Hy. specialize (Y _ Hin). assert (within y (a, n) = true) by (apply within_iff; exact Hy). congruence.
Qed.

Lemma pstep_PI p com op : PI v p com -> plegal v p op -> outside_window p op -> exists p', pdo v p op = Some p' /\
  PI v p' (match op with PLabel0 => Some (live p) | _ => com end) /\ match op with PCrash _ _ | PCrashSm0 _ _ => Some (live p') = com | _ => True end.
Proof.
  intros H L Q. destruct op as [space txg|lba len| | | | | |d torn|bs d]; cbn [plegal outside_window] in L, Q.
  - destruct L as (A & B & C). destruct (write_PI v G p com space txg H A B C) as (p' & ? & ?). eauto.
  - destruct L as (A & B). destruct (free_PI v G p com lba len H A B) as (p' & ? & ?). eauto.
  - destruct (sm0_PI v G p com H L) as (p' & ? & ?). eauto.
  - destruct (label0_PI v p com H L) as (p' & ? & ?). eauto.
  - destruct (sm1_PI v G p com H L) as (p' & ? & ?). eauto.
  - destruct (label1_PI v p com H L) as (p' & ? & ?). eauto.
  - destruct (advance_PI v G p com H L) as (p' & ? & ?). eauto.
  - destruct L as [LB HD]. cbn [pdo]. destruct (p_label _ _ _ H) as [LB0 LB1]. destruct com as [l|].
    2: { exfalso. specialize (LB1 eq_refl). destruct LB; congruence. }
    assert (E : (if torn then match ph p with Sm0Done => None | _ => label0 p end else label0 p) = Some l) by (rewrite LB0; destruct torn, (ph p); congruence).
    rewrite E. destruct (mount_PI v G p (cl p) (Some l) l (if torn then match ph p with Sm1Done => None | _ => label1 p end else label1 p) d (count p) H eq_refl Q) as (p' & A & B & C).
    + intros b _. reflexivity.
    + now apply crash_vol.
    + exists p'. rewrite C. auto.
  - destruct Q.
Qed.

Lemma preach_PI p com : preach v outside_window p com -> PI v p com.
Proof.
  induction 1 as [|p com op p' _ IH L Q E]; [now apply PI_create|]. destruct (pstep_PI p com op IH L Q) as (p1 & E1 & H & _). rewrite E in E1. injection E1 as <-. exact H.
Qed.

(** Outside the window every crash is harmless: the pool can be mounted, it is the
    pool of the last sync, all that it refers to is there, the space map agrees
    with it; and so it goes on, for any number of crashes. *)
Theorem C17_crash_consistent_partial : crash_consistent v outside_window.
Proof.
  intros p com R. pose proof (preach_PI p com R) as H. split; [|split; [|split]].
  - intros lba len id l Hin Hl. eapply (p_live _ _ _ H); [exact Hin|]. now apply within_iff.
  - destruct (p_inv _ _ _ H) as (cln & tr & d & I & _). unfold accounted. exact (inv_used _ _ _ _ I).
  - destruct (p_inv _ _ _ H) as (cln & tr & d & I & _). apply (l_disj _ _ (i_live _ _ _ _ _ I)).
  - intros op L Q. destruct (pstep_PI p com op H L Q) as (p' & E & _ & X). eauto.
Qed.

End Proofs.

(** ** Histories that can be computed *)

(** An operation, or a crash in which everything, or nothing, that was written
    since the last [sync_all] reaches the disk. *)
Inductive sop := Do (op : pop) | Crash (lost torn : bool).

Definition the_op (p : pool) (o : sop) : pop :=
  match o with Do op => op | Crash lost torn => PCrash (if lost then blank (data p) (vol p) else data p) torn end.

Definition isidle (x : phase) : bool := match x with Idle => true | _ => false end.
Definition okb (p : pool) (o : sop) : bool :=
  match o with
  | Do (PWrite space txg) => isidle (ph p) && (0 <? space) && (space <? 2^32) && (0 <=? txg) && (txg <? TXG_MAX)
  | Do (PFree lba len) => isidle (ph p) && existsb (extent_eqb (lba, len)) (map fst (live p))
  | Do PSm0 => isidle (ph p)
  | Do PLabel0 => match ph p with Sm0Done => true | _ => false end
  | Do PSm1 => match ph p with Label0Done => true | _ => false end
  | Do PLabel1 => match ph p with Sm1Done => true | _ => false end
  | Do PAdvance => match ph p with Label1Done => true | _ => false end
  | Do _ => false
  | Crash _ _ => match label0 p, label1 p with None, None => false | _, _ => true end
  end.

Definition outb (p : pool) (o : sop) : bool := match o, ph p with Crash _ _, Sm0Done => false | _, _ => true end.

Fixpoint prun (v : vdev) (Q : pool -> sop -> bool) (p : pool) (com : option (list item)) (os : list sop) : option (pool * option (list item)) :=
  match os with
  | [] => Some (p, com)
  | o :: os => if okb p o && Q p o
               then let* p' := pdo v p (the_op p o) in prun v Q p' (match o with Do PLabel0 => Some (live p) | _ => com end) os
               else None
  end.

Lemma blank_spec es : forall d l, (forall a n, In (a, n) es -> ~ a <= l < a + n) -> blank d es l = d l.
Proof.
  intros d l H. apply blank_out. intros [a n] Hin. specialize (H a n Hin). destruct (within l (a, n)) eqn:W; [|reflexivity].
  apply within_iff in W. cbn [fst snd] in W. contradiction.
Qed.

Lemma okb_legal v p o : okb p o = true -> plegal v p (the_op p o).
Proof.
  assert (ID : isidle (ph p) = true -> ph p = Idle) by (destruct (ph p); cbn; congruence).
  destruct o as [op|lost torn]; cbn [okb the_op].
  - destruct op; cbn [plegal]; intros E; try discriminate; try (now apply ID); try (now destruct (ph p)).
    + repeat (apply andb_prop in E; destruct E as [E ?]). split; [now apply ID|]. lia.
    + apply andb_prop in E. destruct E as [E1 E2]. split; [now apply ID|]. apply existsb_exists in E2. destruct E2 as (x & Hx & E2). apply extent_eqb_eq in E2. now subst x.
  - intros E. cbn [plegal]. split; [destruct (label0 p), (label1 p); try discriminate; (left; discriminate) || (right; discriminate)|].
    intros l H. destruct lost; [now apply blank_spec|reflexivity].
Qed.

Lemma prun_reach v Qb (Q : pool -> pop -> Prop) : (forall p o, Qb p o = true -> okb p o = true -> Q p (the_op p o)) ->
  forall os p com p' com', preach v Q p com -> prun v Qb p com os = Some (p', com') -> preach v Q p' com'.
Proof.
  intros HQ. induction os as [|o os IH]; intros p com p' com' R E; cbn [prun] in E; [now injection E as <- <-|].
  destruct (okb p o) eqn:O; [|discriminate]. destruct (Qb p o) eqn:B; [|discriminate]. cbn [andb] in E.
  destruct (pdo v p (the_op p o)) as [p1|] eqn:ED; [|discriminate]. cbn [obind] in E. eapply IH; [|exact E].
  pose proof (pr_step v Q p com _ p1 R (okb_legal v p o O) (HQ p o B O) ED) as X. destruct o as [[]|]; exact X.
Qed.

Definition anyb (p : pool) (o : sop) : bool := true.
Definition any (p : pool) (op : pop) : Prop := True.

Lemma any_reach v os p com : prun v anyb (pool_create v) None os = Some (p, com) -> preach v any p com.
Proof. apply prun_reach; [easy|constructor]. Qed.

Definition sync : list sop := [Do PSm0; Do PLabel0; Do PSm1; Do PLabel1; Do PAdvance].

(** ** In the window *)

(** A zone is filled, its contents become part of a synced pool, and are freed in
    the next transaction.  That transaction's sync writes space map 0; then the
    machine crashes, before or while label 0 is written.  The label found is the
    one of the first sync, but the space map is the second one's: the zone counts
    as free although the label's trees refer to all of it, and the next sync
    erases it. *)
Definition window (torn : bool) : list sop :=
  [Do (PWrite 10 1); Do (PWrite 2 1)] ++ sync ++ [Do (PFree 0 10); Do PSm0; Crash false torn].

Theorem C17_window_refuted torn : exists p com p' com',
  prun v5 anyb (pool_create v5) None (window torn) = Some (p, com) /\ preach v5 any p com /\
  In ((0, 10), 0) (live p) /\ Some (live p) = com /\ ~ accounted p /\
  prun v5 anyb p com sync = Some (p', com') /\ preach v5 any p' com' /\ live p' = live p /\ data p' 0 = None /\ ~ intact p'.
Proof.
  destruct (prun v5 anyb (pool_create v5) None (window torn)) as [[p com]|] eqn:E; [|destruct torn; vm_compute in E; discriminate].
  pose proof (any_reach _ _ _ _ E) as R.
  destruct (prun v5 anyb p com sync) as [[p' com']|] eqn:E'; [|destruct torn; vm_compute in E; injection E as <- <-; vm_compute in E'; discriminate].
  exists p, com, p', com'. split; [reflexivity|]. split; [exact R|].
  assert (F : live p = [((10, 2), 1); ((0, 10), 0)] /\ Some (live p) = com /\ used (cl p) = Some 2 /\ live p' = live p /\ data p' 0 = None).
  { destruct torn; vm_compute in E; injection E as <- <-; vm_compute in E'; injection E' as <- <-; vm_compute; auto. }
  destruct F as (F1 & F2 & F3 & F4 & F5). split; [rewrite F1; right; now left|]. split; [exact F2|]. split; [unfold accounted; rewrite F1, F3; discriminate|].
  split; [exact E'|]. split; [eapply prun_reach with (Qb := anyb); [easy|exact R|exact E']|]. split; [exact F4|]. split; [exact F5|].
  intros I. specialize (I 0 10 0 0). rewrite F4, F1, F5 in I. discriminate I; [right; now left|lia].
Qed.

(** Freed again after such a crash, an extent makes the free-space map panic. *)
Definition window2 : list sop :=
  [Do (PWrite 2 1); Do (PWrite 2 1)] ++ sync ++ [Do (PFree 0 2); Do PSm0; Crash true true; Do (PFree 0 2)].

Theorem C17_double_free_refuted : exists p com,
  preach v5 any p com /\ plegal v5 p (PFree 2 2) /\ pdo v5 p (PFree 2 2) = None.
Proof.
  destruct (prun v5 anyb (pool_create v5) None window2) as [[p com]|] eqn:E; [|vm_compute in E; discriminate].
  exists p, com. split; [exact (any_reach _ _ _ _ E)|].
  assert (F : okb p (Do (PFree 2 2)) = true /\ pdo v5 p (PFree 2 2) = None) by (vm_compute in E; injection E as <- <-; vm_compute; auto).
  destruct F as [F1 F2]. split; [|exact F2]. exact (okb_legal v5 p _ F1).
Qed.

(** After a crash in label 1 and one in label 0 the pool cannot be mounted. *)
Definition window3 : list sop :=
  [Do (PWrite 2 1)] ++ sync ++ [Do PSm0; Do PLabel0; Do PSm1; Crash false true; Do (PWrite 2 2); Do PSm0].

Theorem C17_unmountable_refuted : exists p com,
  preach v5 any p com /\ plegal v5 p (PCrash (data p) true) /\ pdo v5 p (PCrash (data p) true) = None.
Proof.
  destruct (prun v5 anyb (pool_create v5) None window3) as [[p com]|] eqn:E; [|vm_compute in E; discriminate].
  exists p, com. split; [exact (any_reach _ _ _ _ E)|].
  assert (F : okb p (Crash false true) = true /\ pdo v5 p (PCrash (data p) true) = None) by (vm_compute in E; injection E as <- <-; vm_compute; auto).
  destruct F as [F1 F2]. split; [|exact F2]. exact (okb_legal v5 p _ F1).
Qed.

(** So the promise as a whole is false. *)
Theorem C17_crash_consistent_refuted : ~ crash_consistent v5 any.
Proof.
  intros H. destruct (C17_window_refuted false) as (p & com & p' & com' & _ & _ & _ & _ & _ & _ & R & _ & _ & N). apply N. now apply (H p' com' R).
Qed.

(** The hypotheses are met: five crashes, before and after the labels, with and
    without losses, a zone that is freed, erased and used again. *)
Definition calm_history : list sop :=
  [Do (PWrite 10 1); Do (PWrite 3 1)] ++ sync ++
  [Do (PFree 0 10); Do (PWrite 4 2); Crash true false; Do (PFree 0 10); Do (PWrite 5 2); Do PSm0; Do PLabel0; Crash true true] ++
  sync ++ [Do (PWrite 9 3); Do PSm0; Do PLabel0; Do PSm1; Crash false true; Do (PWrite 10 4); Do PSm0; Do PLabel0; Do PSm1; Do PLabel1; Crash true true] ++
  sync ++ [Do (PFree 14 5); Crash true false].

Example C17_example : exists p com, prun v5 outb (pool_create v5) None calm_history = Some (p, com) /\ preach v5 outside_window p com /\
  live p = [((20, 10), 5); ((0, 9), 4); ((14, 5), 3); ((10, 3), 1)].
Proof.
  destruct (prun v5 outb (pool_create v5) None calm_history) as [[p com]|] eqn:E; [|vm_compute in E; discriminate].
  exists p, com. split; [reflexivity|]. split.
  - eapply prun_reach; [|constructor|exact E]. intros q [op|l t] B O; cbn [the_op outside_window] in *.
    + destruct op; try exact Logic.I; discriminate.
    + cbn [outb] in B. destruct (ph q); discriminate.
  - vm_compute in E. injection E as <- <-. reflexivity.
Qed.

Print Assumptions C17_crash_consistent_partial.
Print Assumptions C17_window_refuted.
Print Assumptions C17_double_free_refuted.
Print Assumptions C17_unmountable_refuted.
Print Assumptions C17_crash_consistent_refuted.
