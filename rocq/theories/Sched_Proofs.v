(** Invariants of the disk scheduler. *)
From Verif Require Import Common Sched_Model.
From Coq Require Import Permutation.

Lemma remove_nth_perm {A} n (l : list A) x : nth_error l n = Some x -> Permutation l (x :: remove_nth n l).
Proof.
  revert n. induction l as [|a l IH]; intros [|n] E; cbn in *; try discriminate.
  - now injection E as ->.
  - rewrite (IH _ E) at 1. apply perm_swap.
Qed.

Lemma NoDup_app_remove_r {A} (l l' : list A) : NoDup (l ++ l') -> NoDup l.
Proof.
  induction l as [|a l IH]; intros H; [constructor|]. cbn in H. inversion H as [|? ? N H']; subst. constructor; [|auto]. intros I. apply N. rewrite in_app_iff. auto.
Qed.
Lemma split_unique {A} (p1 : list A) : forall x p2 u1 u2, NoDup (p1 ++ x :: p2) -> p1 ++ x :: p2 = u1 ++ x :: u2 -> p1 = u1.
Proof.
  induction p1 as [|a p1 IHp]; intros x p2 [|b u1] u2 NDs E; cbn in E.
  - reflexivity.
  - injection E as -> E. exfalso. subst p2. cbn in NDs. inversion NDs as [|? ? N _]; subst. apply N. rewrite in_app_iff. right. left. reflexivity.
  - injection E as -> E. exfalso. cbn in NDs. inversion NDs as [|? ? N _]; subst. apply N. rewrite in_app_iff. right. left. reflexivity.
  - injection E as -> E. f_equal. apply (IHp x p2 u1 u2); [|exact E]. cbn in NDs. now inversion NDs.
Qed.

Definition pick_ok (pick : list op -> nat) : Prop :=
  forall h, h <> [] -> exists o, nth_error h (pick h) = Some o /\ Forall (ole o) h.

Section Inv.
Context (pick : list op -> nat) (PO : pick_ok pick) (opt : Z) (iov_max : option Z).

Lemma heap_pop_spec h : match heap_pop pick h with
  | Some (o, r) => Permutation h (o :: r) /\ Forall (ole o) h /\ heap_peek pick h = Some o
  | None => h = [] /\ heap_peek pick h = None
  end.
Proof.
  unfold heap_pop, heap_peek. destruct h as [|a h].
  - now destruct (pick []).
  - destruct (PO (a :: h)) as (o & E & F); [discriminate|]. rewrite E. split; [now apply remove_nth_perm|auto].
Qed.

(** [all] are the requests of the whole history, [raw] those taken off the queue so far, in order *)
Context (all : list op).
Context (GP : op -> op -> Prop).
(** [GP i j]: [i] is a request submitted before [j], at a lower LBA, and in the LBA range between them requests come in order *)
Context (GPlt : forall i j, GP i j -> o_lba i < o_lba j).
Context (GPmid : forall i j k, GP i j -> In k all -> is_sync k = false -> o_lba i < o_lba k <= o_lba j -> GP i k).
Context (GPpos : forall i j p1 p2, GP i j -> all = p1 ++ j :: p2 -> In i p1).
Context (LBA0 : Forall (fun o => 0 <= o_lba o) all).
Context (GPns : forall i j, GP i j -> is_sync i = false /\ is_sync j = false).
Context (ND : NoDup all).

Definition precedes (i j : op) (l : list op) : Prop := forall l1 l2, l = l1 ++ j :: l2 -> In i l1.
Definition Inv (subs raw : list op) (s : inner) : Prop :=
  (exists pre, subs = pre ++ s_after s /\ Permutation pre (raw ++ s_ahead s ++ s_behind s)) /\
  (match s_after s with [] => s_syncing s = false | o :: _ => is_sync o = true /\ s_syncing s = true end) /\
  Forall (fun o => is_sync o = false) (s_ahead s ++ s_behind s) /\
  Forall (fun o => s_last s <= o_lba o) (s_ahead s) /\ Forall (fun o => o_lba o < s_last s) (s_behind s) /\
  (s_last s = 0 \/ exists o, In o raw /\ is_sync o = false /\ o_lba o = s_last s) /\
  (forall r1 o r2, raw = r1 ++ o :: r2 -> is_sync o = true -> exists p1 p2, subs = p1 ++ o :: p2 /\ Permutation p1 r1) /\
  (forall i j, GP i j -> precedes i j raw /\ ~ (In i (s_behind s) /\ In j (s_ahead s))) /\
  (exists t, all = subs ++ t).

Lemma Inv_in subs raw s o : Inv subs raw s -> In o raw \/ In o (s_ahead s) \/ In o (s_behind s) \/ In o (s_after s) -> In o subs.
Proof.
  intros ((pre & -> & P) & _) H. rewrite in_app_iff. destruct H as [H|[H|[H|H]]]; [left|left|left|right; exact H];
    apply (Permutation_in o (Permutation_sym P)); rewrite !in_app_iff; auto.
Qed.
Lemma Inv_all subs raw s o : Inv subs raw s -> In o subs -> In o all.
Proof. intros (_ & _ & _ & _ & _ & _ & _ & _ & (t & E)) H. rewrite E, in_app_iff. auto. Qed.

Lemma snoc_split {A} (l : list A) x l1 y l2 : l ++ [x] = l1 ++ y :: l2 -> (l2 = [] /\ l1 = l /\ x = y) \/ (exists l3, l2 = l3 ++ [x] /\ l = l1 ++ y :: l3).
Proof.
  intros E. destruct l2 as [|z l2] using rev_ind.
  - apply app_inj_tail in E. destruct E as [-> ->]. auto.
  - right. exists l2. rewrite app_comm_cons, app_assoc in E. apply app_inj_tail in E. destruct E as [-> ->]. auto.
Qed.

(** putting a non-sync request on a queue that is not syncing *)
Lemma heap_add subs raw s o t : Inv subs raw s -> s_after s = [] -> is_sync o = false -> all = (subs ++ [o]) ++ t ->
  Inv (subs ++ [o]) raw (sched s o).
Proof.
  intros IH A0 Ns Al. pose proof IH as ((pre & E & P) & Sy & F1 & F2 & F3 & La & B & G & T). rewrite A0 in *. unfold sched. rewrite Ns, Sy. cbn [orb].
  rewrite app_nil_r in E. subst pre.
  assert (Key : forall i j, GP i j -> In i (s_behind s) -> o = j -> s_last s <= o_lba j -> False).
  { intros i j Gij Ib -> Lj. pose proof F3 as F3'. rewrite Forall_forall in F3'. pose proof (F3' _ Ib) as Li. cbn beta in Li.
    assert (Ii : In i all) by (eapply Inv_all; [exact IH|]; eapply Inv_in; [exact IH|]; auto).
    pose proof (proj1 (Forall_forall _ _) LBA0 _ Ii) as L0. cbn beta in L0.
    destruct La as [La|(k & Ik & Nk & Lk)]; [lia|].
    assert (Gk : GP i k). { apply (GPmid i j k Gij); [|exact Nk|lia]. eapply Inv_all; [exact IH|]. eapply Inv_in; [exact IH|]. auto. }
    destruct (G i k Gk) as [Pr _]. apply in_split in Ik. destruct Ik as (r1 & r2 & Er). specialize (Pr _ _ Er).
    (* i is both in raw and in behind *)
    assert (NDs : NoDup subs) by (rewrite Al in ND; apply NoDup_app_remove_r, NoDup_app_remove_r in ND; exact ND).
    apply (Permutation_NoDup P) in NDs. rewrite Er in NDs. rewrite <- app_assoc in NDs. apply in_split in Pr. destruct Pr as (q1 & q2 & ->).
    rewrite <- !app_assoc in NDs. cbn [app] in NDs. apply NoDup_remove_2 in NDs. apply NDs. rewrite !in_app_iff. right. right. right. rewrite !in_app_iff. auto. }
  assert (Notin : ~ In o raw /\ ~ In o (s_ahead s) /\ ~ In o (s_behind s)).
  { rewrite Al in ND. apply NoDup_app_remove_r in ND. apply (Permutation_NoDup (Permutation_app_comm subs [o])) in ND. inversion ND as [|? ? N _]; subst.
    repeat split; intros H; apply N; eapply Inv_in; eauto. }
  destruct (Z.leb_spec (s_last s) (o_lba o)) as [L|L].
  - unfold Inv. cbn [set_queue s_after s_ahead s_behind s_last s_syncing]. rewrite A0.
    split. { exists (subs ++ [o]). split; [now rewrite app_nil_r|]. rewrite P, <- !app_assoc. do 2 apply Permutation_app_head. apply Permutation_app_comm. }
    split; [reflexivity|]. split. { rewrite <- app_assoc. apply Forall_app in F1 as [F1a F1b]. apply Forall_app. split; [exact F1a|]. constructor; assumption. }
    split; [apply Forall_app; split; [exact F2|constructor; [exact L|constructor]]|]. split; [exact F3|]. split; [exact La|]. split.
    { intros r1 x r2 Er Sx. destruct (B _ _ _ Er Sx) as (p1 & p2 & -> & Pp). exists p1, (p2 ++ [o]). split; [now rewrite <- app_assoc|exact Pp]. }
    split; [|exists t; exact Al]. intros i j Gij. destruct (G i j Gij) as [G1 G2]. split; [exact G1|]. intros [Hi Hj]. apply in_app_or in Hj. destruct Hj as [Hj|[->|[]]]; [auto|].
    exact (Key i j Gij Hi eq_refl L).
  - unfold Inv. cbn [set_queue s_after s_ahead s_behind s_last s_syncing]. rewrite A0.
    split. { exists (subs ++ [o]). split; [now rewrite app_nil_r|]. rewrite P, <- !app_assoc. do 2 apply Permutation_app_head. reflexivity. }
    split; [reflexivity|]. split. { rewrite app_assoc. apply Forall_app. split; [exact F1|]. constructor; [exact Ns|constructor]. }
    split; [exact F2|]. split; [apply Forall_app; split; [exact F3|constructor; [exact L|constructor]]|]. split; [exact La|]. split.
    { intros r1 x r2 Er Sx. destruct (B _ _ _ Er Sx) as (p1 & p2 & -> & Pp). exists p1, (p2 ++ [o]). split; [now rewrite <- app_assoc|exact Pp]. }
    split; [|exists t; exact Al]. intros i j Gij. destruct (G i j Gij) as [G1 G2]. split; [exact G1|]. intros [Hi Hj]. apply in_app_or in Hi. destruct Hi as [Hi|[->|[]]]; [auto|].
    rewrite Forall_forall in F2. pose proof (F2 _ Hj) as Lj. cbn beta in Lj.
    (* o is new, j is older: contradiction with GPpos *)
    assert (Ij : In j subs) by (eapply Inv_in; eauto).
    apply in_split in Ij. destruct Ij as (p1 & p2 & Es). rewrite Es in Al. rewrite <- !app_assoc in Al. cbn [app] in Al. pose proof (GPpos i j _ _ Gij Al) as Ip.
    destruct Notin as (N1 & N2 & N3). assert (In i subs) by (rewrite Es, in_app_iff; auto).
    rewrite Al in ND.
    apply in_split in Ip. destruct Ip as (q1 & q2 & ->). rewrite <- app_assoc in ND. cbn [app] in ND. apply NoDup_remove_2 in ND. apply ND.
    rewrite !in_app_iff. right. right. right. rewrite !in_app_iff. right. left. reflexivity.
Qed.

Lemma add_after subs raw s o t : Inv subs raw s -> is_sync o = true \/ s_syncing s = true -> all = (subs ++ [o]) ++ t -> Inv (subs ++ [o]) raw (sched s o).
Proof.
  intros IH C Al. pose proof IH as ((pre & E & P) & Sy & F1 & F2 & F3 & La & B & G & T). unfold sched.
  replace (is_sync o || s_syncing s) with true by (destruct C as [-> | ->]; [|rewrite orb_true_r]; reflexivity).
  unfold Inv. cbn [set_queue s_after s_ahead s_behind s_last s_syncing].
  split. { exists pre. split; [rewrite E; now rewrite <- app_assoc|exact P]. }
  split. { destruct (s_after s) as [|x r]; cbn [app]; [|split; [apply Sy|reflexivity]]. split; [|reflexivity]. destruct C as [C|C]; [exact C|congruence]. }
  repeat (split; [assumption|]). split.
  { intros r1 x r2 Er Sx. destruct (B _ _ _ Er Sx) as (p1 & p2 & -> & Pp). exists p1, (p2 ++ [o]). split; [now rewrite <- app_assoc|exact Pp]. }
  split; [exact G|exists t; exact Al].
Qed.

Lemma sched_Inv subs raw s o t : Inv subs raw s -> all = (subs ++ [o]) ++ t -> Inv (subs ++ [o]) raw (sched s o).
Proof.
  intros IH Al. destruct (is_sync o) eqn:So; [eapply add_after; eauto|]. destruct (s_syncing s) eqn:Sy; [eapply add_after; eauto|].
  eapply heap_add; eauto. destruct IH as (_ & Af & _). destruct (s_after s); [reflexivity|]. destruct Af. congruence.
Qed.

Lemma release_Inv : forall l subs raw s t, Inv subs raw s -> s_after s = [] -> s_syncing s = false -> all = (subs ++ l) ++ t -> Inv (subs ++ l) raw (release s l).
Proof.
  induction l as [|o l IH]; intros subs raw s t I A0 S0 Al; cbn [release].
  - rewrite app_nil_r. unfold Inv in *. cbn [set_queue s_after s_ahead s_behind s_last s_syncing]. rewrite A0 in I. exact I.
  - destruct (is_sync o) eqn:So.
    + pose proof I as ((pre & E & P) & Sy & F1 & F2 & F3 & La & B & G & T). unfold Inv. cbn [set_queue s_after s_ahead s_behind s_last s_syncing].
      split. { exists pre. split; [|exact P]. rewrite A0, app_nil_r in E. now subst. }
      split; [auto|]. repeat (split; [assumption|]). split.
      { intros r1 x r2 Er Sx. destruct (B _ _ _ Er Sx) as (p1 & p2 & -> & Pp). exists p1, (p2 ++ o :: l). split; [now rewrite <- app_assoc|exact Pp]. }
      split; [exact G|]. exists t. exact Al.
    + replace (subs ++ o :: l) with ((subs ++ [o]) ++ l) by (now rewrite <- app_assoc). apply IH with (t := t).
      * apply heap_add with (t := l ++ t); auto. rewrite Al. rewrite <- !app_assoc. reflexivity.
      * unfold sched. rewrite So, S0. cbn [orb]. destruct (_ <=? _); cbn; exact A0.
      * unfold sched. rewrite So, S0. cbn [orb]. destruct (_ <=? _); cbn; first [reflexivity | exact S0].
      * rewrite Al. rewrite <- !app_assoc. reflexivity.
Qed.

Lemma raw_snoc_sync (subs raw : list op) (o : op) : is_sync o = false ->
  (forall r1 x r2, raw = r1 ++ x :: r2 -> is_sync x = true -> exists p1 p2, subs = p1 ++ x :: p2 /\ Permutation p1 r1) ->
  forall r1 x r2, raw ++ [o] = r1 ++ x :: r2 -> is_sync x = true -> exists p1 p2, subs = p1 ++ x :: p2 /\ Permutation p1 r1.
Proof.
  intros So B r1 x r2 E Sx. apply snoc_split in E. destruct E as [(-> & -> & ->)|(l3 & -> & ->)]; [congruence|]. eapply B; eauto.
Qed.
Lemma precedes_snoc i j raw o : precedes i j raw -> (o = j -> In i raw) -> precedes i j (raw ++ [o]).
Proof. intros P H l1 l2 E. apply snoc_split in E. destruct E as [(-> & -> & ->)|(l3 & -> & ->)]; [auto|]. eapply P; eauto. Qed.

(** taking the next request off the queue *)
Lemma pop_Inv subs raw s : Inv subs raw s -> exists r s', pop_op pick s = Some (r, s') /\
  match r with
  | None => s' = s /\ pending s = [] /\ peek_op pick s = None
  | Some o => Inv subs (raw ++ [o]) s' /\ peek_op pick s = Some o /\ Permutation (pending s) (o :: pending s')
  end.
Proof.
  intros IH. pose proof IH as ((pre & E & P) & Sy & F1 & F2 & F3 & La & B & G & T). unfold pop_op, peek_op, pending.
  pose proof (heap_pop_spec (s_ahead s)) as Ha. destruct (heap_pop pick (s_ahead s)) as [[o ah]|].
  { destruct Ha as (Pa & Oa & ->). eexists _, _. split; [reflexivity|]. cbv beta iota. split; [|split; [reflexivity|]].
    2:{ cbn [set_queue s_after s_ahead s_behind]. rewrite Pa. reflexivity. }
    assert (Io : In o (s_ahead s)) by (apply (Permutation_in o (Permutation_sym Pa)); left; reflexivity).
    assert (So : is_sync o = false) by (rewrite Forall_forall in F1; apply F1; rewrite in_app_iff; auto).
    unfold Inv. cbn [set_queue s_after s_ahead s_behind s_last s_syncing].
    split. { exists pre. split; [exact E|]. rewrite P, Pa, <- app_assoc. reflexivity. }
    split; [exact Sy|].
    split. { rewrite Pa in F1. inversion F1; assumption. }
    assert (Hah : Forall (fun x => o_lba o <= o_lba x) ah). { rewrite Forall_forall in *. intros x Ix. assert (In x (s_ahead s)) by (apply (Permutation_in x (Permutation_sym Pa)); now right). destruct (Oa x H) as [|[]]; lia. }
    split; [exact Hah|].
    split. { rewrite Forall_forall in *. pose proof (F2 _ Io) as L. intros x Ix. specialize (F3 _ Ix). cbn beta in *. lia. }
    split. { right. exists o. split; [rewrite in_app_iff; right; left; reflexivity|auto]. }
    split; [apply raw_snoc_sync; assumption|]. split; [|exact T].
    intros i j Gij. destruct (G i j Gij) as [G1 G2]. split.
    - apply precedes_snoc; [exact G1|]. intros ->.
      assert (Ij : In j subs) by (eapply Inv_in; eauto). destruct T as (t & Al). apply in_split in Ij. destruct Ij as (p1 & p2 & Es). rewrite Es in Al. rewrite <- app_assoc in Al. cbn [app] in Al.
      pose proof (GPpos _ _ _ _ Gij Al) as Ip. assert (Isub : In i subs) by (rewrite Es, in_app_iff; auto).
      assert (Ipre : In i (raw ++ s_ahead s ++ s_behind s)).
      { (* i is in pre because j is *)
        apply (Permutation_in i P). assert (Jpre : In j pre) by (apply (Permutation_in j (Permutation_sym P)); rewrite !in_app_iff; auto).
        apply in_split in Jpre. destruct Jpre as (u1 & u2 & ->). rewrite <- app_assoc in E. cbn [app] in E. rewrite Es in E.
        assert (NDs : NoDup (p1 ++ j :: p2)) by (rewrite Al in ND; clear - ND; rewrite app_comm_cons, app_assoc in ND; apply NoDup_app_remove_r in ND; exact ND).
        pose proof (split_unique _ _ _ _ _ NDs E) as Eq.
        subst u1. rewrite in_app_iff. auto. }
      rewrite !in_app_iff in Ipre. destruct Ipre as [H|[H|H]]; [exact H| |exfalso; apply G2; auto].
      exfalso. rewrite Forall_forall in Oa. pose proof (GPlt _ _ Gij). destruct (Oa _ H) as [|[]]; lia.
    - intros [Hi Hj]. apply G2. split; [exact Hi|]. apply (Permutation_in j (Permutation_sym Pa)). now right. }
  destruct Ha as (A0 & ->). rewrite A0 in *. cbn [app] in *.
  pose proof (heap_pop_spec (s_behind s)) as Hb. destruct (heap_pop pick (s_behind s)) as [[o be]|].
  { destruct Hb as (Pb & Ob & ->). eexists _, _. split; [reflexivity|]. cbv beta iota. split; [|split; [reflexivity|]].
    2:{ cbn [set_queue s_after s_ahead s_behind app]. rewrite Pb. reflexivity. }
    assert (Io : In o (s_behind s)) by (apply (Permutation_in o (Permutation_sym Pb)); left; reflexivity).
    assert (So : is_sync o = false) by (rewrite Forall_forall in F1; apply F1; auto).
    unfold Inv. cbn [set_queue s_after s_ahead s_behind s_last s_syncing].
    split. { exists pre. split; [exact E|]. rewrite P, Pb, <- app_assoc, app_nil_r. reflexivity. }
    split; [exact Sy|].
    split. { rewrite app_nil_r. rewrite Pb in F1. inversion F1; assumption. }
    split. { rewrite Forall_forall in *. intros x Ix. assert (In x (s_behind s)) by (apply (Permutation_in x (Permutation_sym Pb)); now right). destruct (Ob x H) as [|[]]; lia. }
    split; [constructor|].
    split. { right. exists o. split; [rewrite in_app_iff; right; left; reflexivity|auto]. }
    split; [apply raw_snoc_sync; assumption|]. split; [|exact T].
    intros i j Gij. destruct (G i j Gij) as [G1 G2]. split; [|intros [[] _]].
    apply precedes_snoc; [exact G1|]. intros ->.
    assert (Ij : In j subs) by (eapply Inv_in; eauto). destruct T as (t & Al). apply in_split in Ij. destruct Ij as (p1 & p2 & Es). rewrite Es in Al. rewrite <- app_assoc in Al. cbn [app] in Al.
    pose proof (GPpos _ _ _ _ Gij Al) as Ip. assert (Isub : In i subs) by (rewrite Es, in_app_iff; auto).
    assert (Ipre : In i (raw ++ s_behind s)).
    { apply (Permutation_in i P). assert (Jpre : In j pre) by (apply (Permutation_in j (Permutation_sym P)); rewrite !in_app_iff; auto).
      apply in_split in Jpre. destruct Jpre as (u1 & u2 & ->). rewrite <- app_assoc in E. cbn [app] in E. rewrite Es in E.
      assert (NDs : NoDup (p1 ++ j :: p2)) by (rewrite Al in ND; clear - ND; rewrite app_comm_cons, app_assoc in ND; apply NoDup_app_remove_r in ND; exact ND).
      pose proof (split_unique _ _ _ _ _ NDs E) as Eq.
      subst u1. rewrite in_app_iff. auto. }
    rewrite in_app_iff in Ipre. destruct Ipre as [H|H]; [exact H|].
    exfalso. rewrite Forall_forall in Ob. pose proof (GPlt _ _ Gij). destruct (Ob _ H) as [|[]]; lia. }
  destruct Hb as (B0 & ->). rewrite B0 in *. cbn [app] in *.
  destruct (s_after s) as [|o r] eqn:Af.
  { rewrite Sy. eexists _, _. split; [reflexivity|]. cbv beta iota. auto. }
  destruct Sy as [So Sy]. rewrite Sy, So. eexists _, _. split; [reflexivity|]. cbv beta iota. rewrite app_nil_r in P.
  assert (Base : Inv (pre ++ [o]) (raw ++ [o]) (set_queue s (s_last s) false [] [] [])).
  { unfold Inv. cbn [set_queue s_after s_ahead s_behind s_last s_syncing]. destruct T as (t & Al).
    split. { exists (pre ++ [o]). rewrite !app_nil_r. split; [reflexivity|]. now rewrite P. }
    split; [reflexivity|]. split; [constructor|]. split; [constructor|]. split; [constructor|].
    split. { destruct La as [La|(k & Ik & Nk & Lk)]; [auto|]. right. exists k. rewrite in_app_iff. auto. }
    split.
    { intros r1 x r2 Er Sx. apply snoc_split in Er. destruct Er as [(-> & -> & <-)|(l3 & -> & ->)].
      - exists pre, []. auto.
      - destruct (B _ _ _ eq_refl Sx) as (p1 & p2 & Ep & Pp). exists p1.
        (* x is in pre, so the split of subs at x is one of pre *)
        assert (Ix : In x pre) by (apply (Permutation_in x (Permutation_sym P)); rewrite in_app_iff; right; left; reflexivity).
        apply in_split in Ix. destruct Ix as (u1 & u2 & ->). rewrite <- !app_assoc in E. cbn [app] in E.
        assert (Eq : u1 = p1). { rewrite Ep in E. rewrite Ep in Al. assert (NDs : NoDup (p1 ++ x :: p2)) by (rewrite Al in ND; clear - ND; apply NoDup_app_remove_r in ND; exact ND). symmetry. exact (split_unique _ _ _ _ _ NDs E). }
        subst u1. exists (u2 ++ [o]). split; [now rewrite <- app_assoc|exact Pp]. }
    split. { intros i j Gij. destruct (G i j Gij) as [G1 G2]. split; [|tauto]. apply precedes_snoc; [exact G1|]. intros ->. destruct (GPns _ _ Gij). congruence. }
    exists (r ++ t). rewrite Al, E, <- !app_assoc. reflexivity. }
  assert (Es : subs = (pre ++ [o]) ++ r) by (rewrite E, <- app_assoc; reflexivity).
  destruct T as (t & Al). split; [|split; [reflexivity|]].
  - rewrite Es. rewrite A0, B0 in Base || idtac. apply release_Inv with (t := t); [exact Base|reflexivity|reflexivity|now rewrite Al, Es].
  - (* release keeps the requests *)
    assert (Rel : forall l s0, s_syncing s0 = false -> s_after s0 = [] -> Permutation (pending (release s0 l)) (pending s0 ++ l)).
    { induction l as [|x l IHl]; intros s0 S0 Z0; cbn [release].
      - unfold pending. cbn [set_queue s_after s_ahead s_behind]. rewrite Z0, !app_nil_r. reflexivity.
      - destruct (is_sync x) eqn:Sx.
        + unfold pending. cbn [set_queue s_after s_ahead s_behind]. rewrite Z0, app_nil_r, <- app_assoc. reflexivity.
        + assert (Hs : s_syncing (sched s0 x) = false /\ s_after (sched s0 x) = [] /\ Permutation (pending (sched s0 x)) (pending s0 ++ [x])).
          { unfold sched. rewrite Sx, S0. cbn [orb]. destruct (_ <=? _); unfold pending; cbn [set_queue s_after s_ahead s_behind s_syncing]; rewrite Z0, !app_nil_r; (split; [auto|split; [reflexivity|]]).
            - rewrite <- !app_assoc. apply Permutation_app_head. apply Permutation_app_comm.
            - rewrite app_assoc. reflexivity. }
          destruct Hs as (H1 & H2 & H3). rewrite (IHl _ H1 H2), H3, <- app_assoc. reflexivity. }
    symmetry. apply perm_skip. fold (pending (release (set_queue s (s_last s) false [] [] []) r)). rewrite Rel by reflexivity. reflexivity.
Qed.

(** ** Coalescing *)
Definition bufs (c : cmd) : list buf :=
  match c with ReadAt b => [b] | ReadvAt l => l | WriteAt b => [b] | WritevAt l => l | ReadSpacemap b => [b] | WriteSpacemap l => l | _ => [] end.
Definition class (c : cmd) : Z := match c with ReadvAt _ => 1 | WritevAt _ => 4 | c => discriminant c end.
(** the blocks that buffers hold when they lie one after the other from [lba] on: (LBA, buffer, block in the buffer) *)
Fixpoint blocks (lba : Z) (l : list buf) : list (Z * Z * Z) :=
  match l with
  | [] => []
  | b :: r => map (fun j => (lba + j, b_id b, j)) (zrange 0 (b_len b / LBA)) ++ blocks (lba + b_len b / LBA) r
  end.
Definition transfers (o : op) : list (Z * Z * Z) := blocks (o_lba o) (bufs (o_cmd o)).
Definition legal_cmd (c : cmd) : Prop :=
  Forall (fun b => 0 <= b_len b /\ b_len b mod LBA = 0) (bufs c) /\
  match iov_max with Some m => 2 <= m /\ zlen (bufs c) <= m | None => True end.

Lemma sglist_len_mult l : Forall (fun b => 0 <= b_len b /\ b_len b mod LBA = 0) l -> sglist_len l mod LBA = 0 /\ 0 <= sglist_len l.
Proof.
  induction 1 as [|b l [A B] F [IH1 IH2]]; cbn [sglist_len fold_right]; [split; [reflexivity|lia]|]. fold (sglist_len l). unfold LBA in *. split; [|lia].
  rewrite Z.add_mod, B, IH1 by lia. reflexivity.
Qed.
Lemma blocks_app l1 l2 : Forall (fun b => 0 <= b_len b /\ b_len b mod LBA = 0) l1 -> forall lba, blocks lba (l1 ++ l2) = blocks lba l1 ++ blocks (lba + sglist_len l1 / LBA) l2.
Proof.
  induction 1 as [|b l1 [A B] F IH]; intros lba; cbn [app blocks sglist_len fold_right]; [f_equal; rewrite Z.div_0_l by (unfold LBA; lia); lia|].
  fold (sglist_len l1). rewrite IH, <- app_assoc. do 3 f_equal. pose proof (sglist_len_mult l1 F) as [C _].
  assert (L : LBA <> 0) by (unfold LBA; lia). pose proof (Z.div_mod (b_len b) LBA L). pose proof (Z.div_mod (sglist_len l1) LBA L).
  replace (b_len b + sglist_len l1) with ((b_len b / LBA + sglist_len l1 / LBA) * LBA) by nia. rewrite Z.div_mul by exact L. lia.
Qed.

Definition merged (g : list op) (o : op) : Prop :=
  g <> [] /\ (forall x, g = [x] -> o = x) /\ o_senders o = flat_map o_senders g /\ transfers o = flat_map transfers g /\
  Forall (fun x => class (o_cmd x) = class (o_cmd o)) g /\ legal_cmd (o_cmd o).

Lemma sglist_len_1 b : sglist_len [b] = b_len b.
Proof. cbn. lia. Qed.
Lemma can_acc a b : can_accumulate iov_max a b = true -> legal_cmd (o_cmd a) -> legal_cmd (o_cmd b) ->
  exists o, accumulate a b = Some o /\ o_lba o = o_lba a /\ o_senders o = o_senders a ++ o_senders b /\
    transfers o = transfers a ++ transfers b /\ class (o_cmd o) = class (o_cmd a) /\ class (o_cmd b) = class (o_cmd a) /\ legal_cmd (o_cmd o).
Proof.
  intros C La Lb. unfold can_accumulate, accumulate in *. unfold transfers, legal_cmd in *. destruct La as [La1 La2], Lb as [Lb1 Lb2].
  destruct (o_cmd a); try discriminate; destruct (o_cmd b); try discriminate; cbn [bufs] in *; try (apply andb_prop in C; destruct C as [C C2]);
    (eexists; split; [reflexivity|]; cbn [o_lba o_senders o_cmd bufs class discriminant]; split; [reflexivity|]; split; [reflexivity|];
     try (apply Z.eqb_eq in C; rewrite C; try rewrite <- sglist_len_1)).
  all: try (split; [rewrite <- blocks_app by assumption; reflexivity|]; split; [reflexivity|]; split; [reflexivity|]).
  all: try (split; [try (apply Forall_app; split); try (constructor; [inversion La1; assumption|]); try (constructor; [inversion Lb1; assumption|]); try assumption; try constructor|]).
  all: try (destruct iov_max as [m|]; [|exact I]; unfold zlen in *; rewrite ?app_length in *; cbn [length] in *; lia).
  auto.
Qed.

Definition same_frame (s s' : inner) : Prop :=
  s_delayed s' = s_delayed s /\ s_qd s' = s_qd s /\ s_remover s' = s_remover s /\ s_inflight s' = s_inflight s /\ s_timers s' = s_timers s /\ s_count s' = s_count s.
Lemma release_frame l : forall s, same_frame s (release s l).
Proof.
  induction l as [|o l IH]; intros s; cbn [release]; [repeat split|]. destruct (is_sync o); [repeat split|].
  specialize (IH (sched s o)). unfold sched in *. destruct (is_sync o || s_syncing s); [|destruct (s_last s <=? o_lba o)]; exact IH.
Qed.
Lemma pop_frame s r s' : pop_op pick s = Some (r, s') -> same_frame s s'.
Proof.
  unfold pop_op. destruct (heap_pop pick (s_ahead s)) as [[o ah]|]; [intros E; injection E as <- <-; repeat split|].
  destruct (heap_pop pick (s_behind s)) as [[o be]|]; [intros E; injection E as <- <-; repeat split|].
  destruct (s_syncing s); [|intros E; injection E as <- <-; repeat split]. destruct (s_after s) as [|o l]; [discriminate|].
  destruct (is_sync o); intros E; injection E as <- <-; [|repeat split].
  pose proof (release_frame l (set_queue s (s_last s) false (s_ahead s) (s_behind s) [])) as F. exact F.
Qed.
Lemma frame_trans a b c : same_frame a b -> same_frame b c -> same_frame a c.
Proof. unfold same_frame. intuition congruence. Qed.

Context (LEG : Forall (fun o => legal_cmd (o_cmd o)) all).

Lemma single o : In o all -> merged [o] o.
Proof.
  intros Io. split; [discriminate|]. split; [intros x E; now injection E|]. cbn [flat_map]. rewrite !app_nil_r. split; [reflexivity|]. split; [reflexivity|]. split; [repeat constructor|].
  exact (proj1 (Forall_forall _ _) LEG _ Io).
Qed.

Lemma coalesce_ok : forall fuel subs raw o s g, Inv subs raw s -> merged g o ->
  exists o' s' g2, coalesce pick iov_max fuel o s = Some (o', s') /\ Inv subs (raw ++ g2) s' /\ merged (g ++ g2) o' /\ same_frame s s' /\ Permutation (pending s) (g2 ++ pending s').
Proof.
  induction fuel as [|fuel IH]; intros subs raw o s g HI M; cbn [coalesce].
  { exists o, s, []. rewrite !app_nil_r. split; [reflexivity|]. split; [exact HI|]. split; [exact M|]. split; [repeat split|reflexivity]. }
  destruct (pop_Inv subs raw s HI) as (r & s1 & E & Hr). destruct r as [o2|].
  2:{ destruct Hr as (_ & _ & ->). exists o, s, []. rewrite !app_nil_r. split; [reflexivity|]. split; [exact HI|]. split; [exact M|]. split; [repeat split|reflexivity]. }
  destruct Hr as (HI1 & -> & Pp). destruct (can_accumulate iov_max o o2) eqn:C.
  2:{ exists o, s, []. rewrite !app_nil_r. split; [reflexivity|]. split; [exact HI|]. split; [exact M|]. split; [repeat split|reflexivity]. }
  rewrite E. destruct M as (M1 & M2 & M3 & M4 & M5 & M6).
  assert (I2 : In o2 all). { eapply Inv_all; [exact HI1|]. eapply Inv_in; [exact HI1|]. left. rewrite in_app_iff. right. left. reflexivity. }
  destruct (can_acc o o2 C M6 (proj1 (Forall_forall _ _) LEG _ I2)) as (o3 & -> & A1 & A2 & A3 & A4 & A5 & A6).
  destruct (IH subs (raw ++ [o2]) o3 s1 (g ++ [o2]) HI1) as (o' & s' & g2 & Ec & Ic & Mc & Fc & Pc).
  { split; [destruct g; discriminate|]. split; [intros x Ex; destruct g as [|? [|? ?]]; try discriminate; contradiction|]. rewrite !flat_map_app. cbn [flat_map]. rewrite !app_nil_r.
    split; [now rewrite A2, M3|]. split; [now rewrite A3, M4|]. split; [|exact A6]. apply Forall_app. split.
    - eapply Forall_impl; [|exact M5]. cbn beta. intros x Ex. now rewrite A4.
    - constructor; [now rewrite A4|constructor]. }
  exists o', s', (o2 :: g2). split; [exact Ec|]. rewrite <- !app_assoc in *. cbn [app] in *. split; [exact Ic|]. split; [exact Mc|]. split; [eapply frame_trans; [eapply pop_frame; exact E|exact Fc]|].
  rewrite Pp. now rewrite Pc.
Qed.

(** ** Issuing *)
Definition dl (s : inner) : list op := match s_delayed s with Some o => [o] | None => [] end.
Definition taken (e : event) : list op := match e with Issued o | Cancelled o => [o] | _ => [] end.
Definition issued (e : event) : list op := match e with Issued o => [o] | _ => [] end.
Definition notified (e : event) : list op := match e with Notified o => [o] | _ => [] end.
(** [H] are the operations that left the scheduler so far *)
Definition Gs (subs H : list op) (s : inner) : Prop := exists gs, Forall2 merged gs (H ++ dl s) /\ Inv subs (concat gs) s.

Lemma Inv_frame subs raw s s' : s_after s' = s_after s -> s_ahead s' = s_ahead s -> s_behind s' = s_behind s -> s_last s' = s_last s -> s_syncing s' = s_syncing s ->
  Inv subs raw s -> Inv subs raw s'.
Proof. unfold Inv. intros -> -> -> -> ->. auto. Qed.

(** one round of the loop: the operation to issue *)
Lemma next_ok subs H s : Gs subs H s -> s_delayed s = None ->
  exists r s', pop_op pick s = Some (r, s') /\
  match r with
  | None => s' = s /\ pending s = []
  | Some o => exists o' s'', coalesce pick iov_max (length (pending s')) o s' = Some (o', s'') /\ (exists gs g, Forall2 merged (gs ++ [g]) (H ++ [o']) /\ Inv subs (concat (gs ++ [g])) s'' /\ Permutation (pending s) (g ++ pending s'') /\ g <> []) /\
      same_frame s s''
  end.
Proof.
  intros (gs & F & HI) D. unfold dl in F. rewrite D, app_nil_r in F. destruct (pop_Inv subs (concat gs) s HI) as (r & s1 & E & Hr). exists r, s1. split; [exact E|].
  destruct r as [o|]; [|tauto]. destruct Hr as (HI1 & _ & Pp).
  assert (Io : In o all). { eapply Inv_all; [exact HI1|]. eapply Inv_in; [exact HI1|]. left. rewrite in_app_iff. right. left. reflexivity. }
  destruct (coalesce_ok (length (pending s1)) subs _ o s1 [o] HI1 (single o Io)) as (o' & s'' & g2 & Ec & Ic & Mc & Fc & Pc).
  exists o', s''. split; [exact Ec|]. split; [|eapply frame_trans; [eapply pop_frame; exact E|exact Fc]]. exists gs, (o :: g2). split; [apply Forall2_app; [exact F|constructor; [exact Mc|constructor]]|]. split.
  - rewrite concat_app. cbn [concat]. rewrite app_nil_r. rewrite <- app_assoc in Ic. exact Ic.
  - split; [rewrite Pp, Pc; reflexivity|discriminate].
Qed.
Lemma merged_len g o : merged g o -> g <> [].
Proof. intros (H & _). exact H. Qed.

(** what the loop does to the queue *)
Lemma issue_loop_ok : forall fuel subs H s ans s' ev, Gs subs H s -> issue_loop pick opt iov_max fuel s ans = Some (s', ev) ->
  Gs subs (H ++ flat_map taken ev) s' /\ s_count s' = s_count s /\ s_remover s' = s_remover s /\
  Permutation (s_inflight s ++ flat_map issued ev) (s_inflight s' ++ flat_map notified ev) /\
  (s_remover s = true -> flat_map issued ev = []) /\ (s_remover s = false -> flat_map taken ev = flat_map issued ev).
Proof.
  induction fuel as [|fuel IH]; intros subs H s ans s' ev HG E; cbn [issue_loop] in E.
  { injection E as <- <-. cbn [flat_map]. rewrite !app_nil_r. auto 10. }
  destruct (s_qd s <? opt); [|injection E as <- <-; cbn [flat_map]; rewrite !app_nil_r; auto 10].
  assert (Core : forall o retry s1, Gs subs H (set_delayed s1 (Some o)) -> s_count s1 = s_count s -> s_remover s1 = s_remover s -> s_inflight s1 = s_inflight s -> s_delayed s1 = None ->
    (let (a, ans') := if s_remover s1 then (Pending, ans) else match ans with [] => (Pending, []) | a :: r => (a, r) end in
     match issue_fut s1 o retry a with
     | None => None
     | Some (s2, ev, true) => match issue_loop pick opt iov_max fuel s2 ans' with Some (s3, ev') => Some (s3, ev ++ ev') | None => None end
     | Some (s2, ev, false) => Some ((if s_qd s2 =? 1 then set_timers s2 (S (s_timers s2)) else s2), ev)
     end) = Some (s', ev) ->
    Gs subs (H ++ flat_map taken ev) s' /\ s_count s' = s_count s /\ s_remover s' = s_remover s /\
    Permutation (s_inflight s ++ flat_map issued ev) (s_inflight s' ++ flat_map notified ev) /\
    (s_remover s = true -> flat_map issued ev = []) /\ (s_remover s = false -> flat_map taken ev = flat_map issued ev)).
  { intros o retry s1 HG1 C1 C2 C3 C4 E1.
    assert (HGn : forall s2, s_after s2 = s_after s1 -> s_ahead s2 = s_ahead s1 -> s_behind s2 = s_behind s1 -> s_last s2 = s_last s1 -> s_syncing s2 = s_syncing s1 -> s_delayed s2 = None -> Gs subs (H ++ [o]) s2).
    { intros s2 H1 H2 H3 H4 H5 H6. destruct HG1 as (gs & F & HI). exists gs. unfold dl in *. rewrite H6, app_nil_r. cbn [set_delayed s_delayed] in F. split; [exact F|].
      eapply Inv_frame; [ | | | | |exact HI]; assumption. }
    destruct (s_remover s1) eqn:Er.
    - unfold issue_fut in E1. rewrite Er in E1. destruct (issue_loop _ _ _ _ _ _) as [[s3 ev']|] eqn:EL; [|discriminate]. injection E1 as <- <-.
      apply (IH subs (H ++ [o])) in EL; [|apply HGn; (reflexivity || exact C4)]. cbn [set_qd s_count s_remover s_inflight] in EL. destruct EL as (L1 & L2 & L3 & L4 & L5 & L6).
      cbn [flat_map app taken issued notified]. rewrite <- app_assoc in L1. cbn [app] in L1. rewrite C3 in L4. split; [exact L1|]. split; [congruence|]. split; [congruence|]. split; [exact L4|]. split; [intros _; apply L5; exact Er|congruence].
    - set (p := match ans with [] => (Pending, []) | a :: r => (a, r) end) in E1. destruct p as [a ans']. unfold issue_fut in E1. rewrite Er in E1. destruct (retry && is_sync o); [discriminate|].
      destruct a.
      + injection E1 as <- <-. cbn [flat_map]. rewrite !app_nil_r. split; [|].
        * destruct HG1 as (gs & F & HI). exists gs. destruct (s_qd s1 =? 1); (split; [exact F|exact HI]).
        * destruct (s_qd s1 =? 1); cbn; rewrite C1, Er, C2, C3; auto 10.
      + destruct (issue_loop _ _ _ _ _ _) as [[s3 ev']|] eqn:EL; [|discriminate]. injection E1 as <- <-.
        apply (IH subs (H ++ [o])) in EL; [|apply HGn; (reflexivity || exact C4)]. cbn [set_inflight s_count s_remover s_inflight] in EL. destruct EL as (L1 & L2 & L3 & L4 & L5 & L6).
        cbn [flat_map app taken issued notified]. rewrite <- app_assoc in L1. cbn [app] in L1. rewrite C3 in L4. split; [exact L1|]. split; [congruence|]. split; [congruence|].
        split; [rewrite <- L4, <- app_assoc; reflexivity|]. split; [congruence|]. intros _. f_equal. apply L6. exact Er.
      + destruct (issue_loop _ _ _ _ _ _) as [[s3 ev']|] eqn:EL; [|discriminate]. injection E1 as <- <-.
        apply (IH subs (H ++ [o])) in EL; [|apply HGn; (reflexivity || exact C4)]. cbn [set_qd s_count s_remover s_inflight] in EL. destruct EL as (L1 & L2 & L3 & L4 & L5 & L6).
        cbn [flat_map app taken issued notified]. rewrite <- app_assoc in L1. cbn [app] in L1. rewrite C3 in L4. split; [exact L1|]. split; [congruence|]. split; [congruence|].
        split. { rewrite <- Permutation_middle, L4. apply Permutation_middle. } split; [congruence|]. intros _. f_equal. apply L6. exact Er. }
  cbv zeta in E. destruct (s_delayed s) as [o|] eqn:D.
  - apply (Core o true (set_delayed s None)); try reflexivity; [|exact E]. destruct HG as (gs & F & HI). exists gs. unfold dl in *. rewrite D in F. cbn [set_delayed s_delayed]. split; [exact F|exact HI].
  - destruct (next_ok subs H s HG D) as (r & s1 & Ep & Hr). rewrite Ep in E. destruct r as [o|].
    + destruct Hr as (o' & s'' & Ec & (gs & g & F & HI & _) & Fr). rewrite Ec in E. destruct Fr as (R1 & R2 & R3 & R4 & R5 & R6).
      apply (Core o' false (set_qd s'' (s_qd s'' + 1))); cbn [set_qd s_count s_remover s_inflight s_delayed]; try assumption; [|congruence].
      exists (gs ++ [g]). split; [exact F|exact HI].
    + destruct Hr as (-> & _). injection E as <- <-. cbn [flat_map]. rewrite !app_nil_r. auto 10.
Qed.

(** ** Histories *)
Fixpoint reqs (n : nat) (l : list input) : list op :=
  match l with
  | [] => []
  | Submit lba c _ :: r => Op lba c [n] :: reqs (S n) r
  | _ :: r => reqs n r
  end.
Definition no_remove (l : list input) : Prop := Forall (fun i => match i with Remove _ => False | _ => True end) l.

Lemma issue_all_ok subs H s ans s' ev : Gs subs H s -> issue_all pick opt iov_max s ans = Some (s', ev) ->
  Gs subs (H ++ flat_map taken ev) s' /\ s_count s' = s_count s /\
  Permutation (s_inflight s ++ flat_map issued ev) (s_inflight s' ++ flat_map notified ev) /\
  (s_remover s = true -> flat_map issued ev = []) /\ (s_remover s = false -> flat_map taken ev = flat_map issued ev /\ s_remover s' = false).
Proof.
  intros HG E. unfold issue_all in E. destruct (issue_loop _ _ _ _ _ _) as [[s1 e1]|] eqn:EL; [|discriminate].
  destruct (issue_loop_ok _ _ _ _ _ _ _ HG EL) as (L1 & L2 & L3 & L4 & L5 & L6).
  destruct ((s_qd s1 =? 0) && s_remover s1) eqn:C; injection E as <- <-.
  - rewrite !flat_map_app. cbn [flat_map taken issued notified]. rewrite !app_nil_r. split; [exact L1|]. split; [exact L2|]. split; [exact L4|]. split; [exact L5|]. intros R. split; [auto|]. reflexivity.
  - split; [exact L1|]. split; [exact L2|]. split; [exact L4|]. split; [exact L5|]. intros R. split; [auto|congruence].
Qed.

Lemma step_ok subs H s i s' ev t : Gs subs H s -> s_count s = length subs -> all = (subs ++ reqs (length subs) [i]) ++ t -> step pick opt iov_max s i = Some (s', ev) ->
  Gs (subs ++ reqs (length subs) [i]) (H ++ flat_map taken ev) s' /\ s_count s' = length (subs ++ reqs (length subs) [i]) /\
  Permutation (s_inflight s ++ flat_map issued ev) (s_inflight s' ++ flat_map notified ev) /\
  (s_remover s = false -> no_remove [i] -> flat_map taken ev = flat_map issued ev /\ s_remover s' = false).
Proof.
  intros HG C Al E. destruct i as [lba c ans|k|ans|ans]; cbn [step reqs] in *.
  - rewrite C in E. set (o := Op lba c [length subs]) in *.
    assert (HG1 : Gs (subs ++ [o]) H (set_count (sched s o) (S (length subs)))).
    { destruct HG as (gs & F & HI). exists gs. split.
      - replace (dl (set_count (sched s o) (S (length subs)))) with (dl s); [exact F|]. unfold dl, sched. destruct (is_sync o || s_syncing s); [|destruct (s_last s <=? o_lba o)]; reflexivity.
      - pose proof (sched_Inv subs (concat gs) s o t HI Al) as I1. exact I1. }
    apply (issue_all_ok _ _ _ _ _ _ HG1) in E. destruct E as (L1 & L2 & L3 & L4 & L5). split; [exact L1|].
    split; [rewrite L2; cbn [set_count s_count]; rewrite app_length; cbn [length]; lia|].
    assert (F1 : s_inflight (set_count (sched s o) (S (length subs))) = s_inflight s /\ s_remover (set_count (sched s o) (S (length subs))) = s_remover s).
    { unfold sched. destruct (is_sync o || s_syncing s); [|destruct (s_last s <=? o_lba o)]; split; reflexivity. }
    destruct F1 as [F1 F2]. rewrite F1 in L3. rewrite F2 in L5. auto.
  - rewrite app_nil_r in *. destruct (nth_error (s_inflight s) k) as [o|] eqn:En; injection E as <- <-; cbn [flat_map taken issued notified]; rewrite ?app_nil_r.
    + split; [|split; [exact C|split; [|auto]]].
      * destruct HG as (gs & F & HI). exists gs. split; [exact F|exact HI].
      * cbn [set_timers set_qd set_inflight s_inflight]. rewrite (remove_nth_perm _ _ _ En) at 1. rewrite Permutation_app_comm. reflexivity.
    + auto.
  - rewrite app_nil_r in *. destruct (s_timers s) as [|tm]; [injection E as <- <-; cbn [flat_map]; rewrite !app_nil_r; auto|].
    assert (HG1 : Gs subs H (set_timers s tm)) by (destruct HG as (gs & F & HI); exists gs; split; [exact F|exact HI]).
    apply (issue_all_ok _ _ _ _ _ _ HG1) in E. destruct E as (L1 & L2 & L3 & L4 & L5). split; [exact L1|]. split; [rewrite L2; exact C|]. split; [exact L3|]. intros R _. apply L5. exact R.
  - rewrite app_nil_r in *. destruct (s_remover s) eqn:R; [discriminate|].
    assert (HG1 : Gs subs H (set_remover s true)) by (destruct HG as (gs & F & HI); exists gs; split; [exact F|exact HI]).
    apply (issue_all_ok _ _ _ _ _ _ HG1) in E. destruct E as (L1 & L2 & L3 & L4 & L5). split; [exact L1|]. split; [rewrite L2; exact C|]. split; [exact L3|]. intros _ NR. inversion NR; contradiction.
Qed.

Lemma reqs_app n i l : reqs n (i :: l) = reqs n [i] ++ reqs (n + length (reqs n [i])) l.
Proof. destruct i; cbn [reqs app length]; rewrite ?Nat.add_0_r; try reflexivity. do 2 f_equal. lia. Qed.
Lemma run_ok : forall l subs H s s' ev t, Gs subs H s -> s_count s = length subs -> all = (subs ++ reqs (length subs) l) ++ t -> run pick opt iov_max s l = Some (s', ev) ->
  Gs (subs ++ reqs (length subs) l) (H ++ flat_map taken ev) s' /\ s_count s' = length (subs ++ reqs (length subs) l) /\
  Permutation (s_inflight s ++ flat_map issued ev) (s_inflight s' ++ flat_map notified ev) /\
  (s_remover s = false -> no_remove l -> flat_map taken ev = flat_map issued ev /\ s_remover s' = false).
Proof.
  induction l as [|i l IH]; intros subs H s s' ev t HG C Al E; cbn [run] in E.
  - injection E as <- <-. cbn [reqs flat_map]. rewrite !app_nil_r. auto.
  - destruct (step pick opt iov_max s i) as [[s1 e1]|] eqn:E1; [|discriminate]. destruct (run pick opt iov_max s1 l) as [[s2 e2]|] eqn:E2; [|discriminate]. injection E as <- <-.
    rewrite reqs_app in *. rewrite app_assoc in *. rewrite <- app_length in *.
    destruct (step_ok subs H s i s1 e1 (reqs (length (subs ++ reqs (length subs) [i])) l ++ t) HG C) as (S1 & S2 & S3 & S4); [rewrite Al, <- !app_assoc; reflexivity|exact E1|].
    destruct (IH _ _ _ _ _ t S1 S2 Al E2) as (R1 & R2 & R3 & R4). rewrite !flat_map_app. rewrite <- !app_assoc in *. split; [exact R1|]. split; [exact R2|]. split.
    + rewrite app_assoc, S3. rewrite <- !app_assoc. rewrite (Permutation_app_comm (flat_map notified e1)). rewrite app_assoc, R3, <- app_assoc. apply Permutation_app_head, Permutation_app_comm.
    + intros R NR. inversion NR as [|? ? N1 N2]; subst. destruct (S4 R) as [T1 T2]; [constructor; [exact N1|constructor]|]. destruct (R4 T2 N2) as [T3 T4]. split; [now rewrite T1, T3|exact T4].
Qed.

Lemma new_Gs : Gs [] [] new_inner.
Proof.
  exists []. split; [constructor|]. unfold Inv. cbn. split; [exists []; split; [reflexivity|constructor]|]. split; [reflexivity|]. split; [constructor|]. split; [constructor|]. split; [constructor|].
  split; [auto|]. split; [intros [|? ?] ? ? E; discriminate|]. split; [|exists all; reflexivity]. intros i j _. split; [intros [|? ?] ? E; discriminate|tauto].
Qed.

(** ** Progress *)
Context (OPT : 2 <= opt < 2 ^ 32).
Definition npend (s : inner) : nat := length (pending s) + length (dl s).
Definition Q (s : inner) : Prop := s_remover s = false /\ s_qd s = zlen (s_inflight s) + zlen (dl s) /\ s_qd s <= opt.
Definition quiet (s : inner) : Prop := match s_delayed s with Some o => is_sync o = false | None => True end.
Definition Fin (s : inner) : Prop := npend s <> O -> s_inflight s <> [] \/ s_timers s <> O.
Lemma dec_small q : 0 < q < 2 ^ 32 -> dec q = q - 1.
Proof. intros. unfold dec. apply Z.mod_small. lia. Qed.

Lemma dl_some s o : zlen (dl (set_delayed s (Some o))) = 1.
Proof. reflexivity. Qed.

Lemma issue_loop_q : forall fuel subs H s ans, Gs subs H s -> Q s -> quiet s \/ issue_loop pick opt iov_max fuel s ans <> None -> (npend s < fuel)%nat ->
  exists s' ev, issue_loop pick opt iov_max fuel s ans = Some (s', ev) /\ Q s' /\ (opt <= s_qd s' \/ npend s' = O \/ (s_delayed s' <> None /\ (s_qd s' = 1 -> s_timers s' <> O))) /\
    (ans = [] -> s_delayed s' = None \/ (s' = s /\ opt <= s_qd s)) /\ (ans = [] -> 2 * Z.of_nat (npend s') + zlen (s_inflight s') <= 2 * Z.of_nat (npend s) + zlen (s_inflight s)).
Proof.
  induction fuel as [|fuel IH]; intros subs H s ans HG HQ Hq Hf; [lia|]. cbn [issue_loop] in *. pose proof HQ as (Q1 & Q2 & Q3).
  destruct (Z.ltb_spec (s_qd s) opt) as [L|L].
  2:{ exists s, []. split; [reflexivity|]. split; [exact HQ|]. split; [auto|]. split; [auto|lia]. }
  assert (Core : forall o retry s1, Gs subs H (set_delayed s1 (Some o)) -> s_remover s1 = false -> s_inflight s1 = s_inflight s -> s_delayed s1 = None -> (retry = true -> is_sync o = false) ->
    s_qd s1 = zlen (s_inflight s1) + 1 -> s_qd s1 <= opt -> (length (pending s1) < npend s)%nat ->
    exists s' ev, (let (a, ans') := if s_remover s1 then (Pending, ans) else match ans with [] => (Pending, []) | a :: r => (a, r) end in
     match issue_fut s1 o retry a with
     | None => None
     | Some (s2, ev, true) => match issue_loop pick opt iov_max fuel s2 ans' with Some (s3, ev') => Some (s3, ev ++ ev') | None => None end
     | Some (s2, ev, false) => Some ((if s_qd s2 =? 1 then set_timers s2 (S (s_timers s2)) else s2), ev)
     end) = Some (s', ev) /\ Q s' /\ (opt <= s_qd s' \/ npend s' = O \/ (s_delayed s' <> None /\ (s_qd s' = 1 -> s_timers s' <> O))) /\
    (ans = [] -> s_delayed s' = None \/ (s' = s /\ opt <= s_qd s)) /\ (ans = [] -> 2 * Z.of_nat (npend s') + zlen (s_inflight s') <= 2 * Z.of_nat (npend s) + zlen (s_inflight s))).
  { intros o retry s1 HG1 C2 C3 C4 C5 C6 C7 C8.
    assert (HGn : forall s2, s_after s2 = s_after s1 -> s_ahead s2 = s_ahead s1 -> s_behind s2 = s_behind s1 -> s_last s2 = s_last s1 -> s_syncing s2 = s_syncing s1 -> s_delayed s2 = None -> Gs subs (H ++ [o]) s2).
    { intros s2 H1 H2 H3 H4 H5 H6. destruct HG1 as (gs & F & HI). exists gs. unfold dl in *. rewrite H6, app_nil_r. cbn [set_delayed s_delayed] in F. split; [exact F|].
      eapply Inv_frame; [ | | | | |exact HI]; assumption. }
    pose proof (zlen_nonneg (s_inflight s1)) as NN.
    assert (Np : forall s2, s_delayed s2 = None -> npend s2 = length (pending s2)) by (intros s2 D2; unfold npend, dl; rewrite D2; cbn [length]; lia).
    rewrite C2. set (p := match ans with [] => (Pending, []) | a :: r => (a, r) end). destruct p as [a ans'] eqn:Ep.
    assert (Pa : ans = [] -> a = Pending /\ ans' = []). { intros ->. cbn in p. subst p. injection Ep as <- <-. auto. }
    unfold issue_fut. rewrite C2. replace (retry && is_sync o) with false by (destruct retry; [rewrite C5 by reflexivity|]; reflexivity). destruct a.
    - eexists _, _. split; [reflexivity|]. set (sd := set_delayed s1 (Some o)). split; [|split; [|split]].
      + assert (Qd : Q sd) by (split; [exact C2|split; [cbn [sd set_delayed s_qd s_inflight]; unfold sd; rewrite dl_some; exact C6|exact C7]]).
        destruct (s_qd sd =? 1); exact Qd.
      + right. right. destruct (Z.eqb_spec (s_qd sd) 1) as [Eq|Nq]; (split; [discriminate|]); [intros _; discriminate|intros Eq; contradiction].
      + intros Z0. destruct (Pa Z0). discriminate.
      + intros Z0. destruct (Pa Z0). discriminate.
    - destruct (IH subs (H ++ [o]) (set_inflight s1 (s_inflight s1 ++ [o])) ans') as (s3 & ev & EL & L1 & L2 & L3 & L4).
      + apply HGn; (reflexivity || exact C4).
      + split; [exact C2|]. cbn [set_inflight s_qd s_inflight]. unfold dl. cbn [set_inflight s_delayed]. rewrite C4, zlen_app. unfold zlen in *. cbn [length]. lia.
      + left. unfold quiet. cbn [set_inflight s_delayed]. now rewrite C4.
      + rewrite Np by exact C4. change (pending (set_inflight s1 (s_inflight s1 ++ [o]))) with (pending s1). lia.
      + rewrite EL. eexists _, _. split; [reflexivity|]. split; [exact L1|]. split; [exact L2|].
        rewrite (Np (set_inflight s1 (s_inflight s1 ++ [o]))) in L4 by exact C4. change (pending (set_inflight s1 (s_inflight s1 ++ [o]))) with (pending s1) in L4. cbn [set_inflight s_inflight] in L4. rewrite C3, zlen_app in L4. unfold zlen at 3 in L4. cbn [length] in L4. split.
        * intros Z0. destruct (Pa Z0) as [_ Z1]. destruct (L3 Z1) as [D|[-> L5]]; [auto|]. left. exact C4.
        * intros Z0. destruct (Pa Z0) as [_ Z1]. specialize (L4 Z1). lia.
    - destruct (IH subs (H ++ [o]) (set_qd s1 (dec (s_qd s1))) ans') as (s3 & ev & EL & L1 & L2 & L3 & L4).
      + apply HGn; (reflexivity || exact C4).
      + split; [exact C2|]. cbn [set_qd s_qd s_inflight]. unfold dl. cbn [set_qd s_delayed]. rewrite C4. rewrite dec_small by lia. unfold zlen in *. cbn [length]. lia.
      + left. unfold quiet. cbn [set_qd s_delayed]. now rewrite C4.
      + rewrite Np by exact C4. change (pending (set_qd s1 (dec (s_qd s1)))) with (pending s1). lia.
      + rewrite EL. eexists _, _. split; [reflexivity|]. split; [exact L1|]. split; [exact L2|]. split.
        * intros Z0. destruct (Pa Z0). discriminate.
        * intros Z0. destruct (Pa Z0). discriminate. }
  cbv zeta. destruct (s_delayed s) as [o|] eqn:D.
  - apply (Core o true (set_delayed s None)); try reflexivity.
    + destruct HG as (gs & F & HI). exists gs. unfold dl in *. rewrite D in F. cbn [set_delayed s_delayed]. split; [exact F|exact HI].
    + exact Q1.
    + intros _. destruct Hq as [Hq|Hq]; [unfold quiet in Hq; now rewrite D in Hq|]. replace (s_qd s <? opt) with true in Hq by lia. cbv zeta in Hq. cbn [set_delayed s_remover] in Hq. rewrite Q1 in Hq.
      destruct (is_sync o) eqn:So; [|reflexivity]. exfalso. apply Hq. destruct ans; unfold issue_fut; cbn [set_delayed s_remover]; rewrite Q1, So; reflexivity.
    + cbn [set_delayed s_qd s_inflight]. rewrite Q2. unfold dl. now rewrite D.
    + exact Q3.
    + change (pending (set_delayed s None)) with (pending s). unfold npend, dl. rewrite D. cbn [length]. lia.
  - destruct (next_ok subs H s HG D) as (r & s1 & Ep & Hr). rewrite Ep. destruct r as [o|].
    + destruct Hr as (o' & s'' & Ec & (gs & g & F & HI & Pp & Ng) & Fr). rewrite Ec. destruct Fr as (R1 & R2 & R3 & R4 & R5 & R6).
      apply (Core o' false (set_qd s'' (s_qd s'' + 1))); cbn [set_qd s_count s_remover s_inflight s_delayed s_qd]; try assumption; try congruence.
      * exists (gs ++ [g]). split; [exact F|exact HI].
      * rewrite R2, R4, Q2. unfold dl. rewrite D. unfold zlen. cbn [length]. lia.
      * rewrite R2. lia.
      * change (pending (set_qd s'' (s_qd s'' + 1))) with (pending s''). unfold npend, dl. rewrite D. rewrite (Permutation_length Pp), app_length. destruct g; [contradiction|]. cbn [length]. lia.
    + destruct Hr as (-> & P0). exists s, []. split; [reflexivity|]. split; [exact HQ|]. split; [|split; [auto|lia]]. right. left. unfold npend, dl. rewrite P0, D. reflexivity.
Qed.

Lemma issue_all_q subs H s ans : Gs subs H s -> Q s -> quiet s \/ issue_all pick opt iov_max s ans <> None ->
  exists s' ev, issue_all pick opt iov_max s ans = Some (s', ev) /\ Q s' /\ Fin s' /\
    (ans = [] -> (quiet s -> quiet s') /\ 2 * Z.of_nat (npend s') + zlen (s_inflight s') <= 2 * Z.of_nat (npend s) + zlen (s_inflight s) /\ (s_inflight s' = [] -> npend s' = O)).
Proof.
  intros HG HQ Hq. unfold issue_all in *. destruct (issue_loop_q (S (S (length (pending s)))) subs H s ans HG HQ) as (s' & ev & E & L1 & L2 & L3 & L4).
  { destruct Hq as [Hq|Hq]; [left; exact Hq|right]. intros Z0. rewrite Z0 in Hq. contradiction. }
  { unfold npend, dl. destruct (s_delayed s); cbn [length]; lia. }
  rewrite E. destruct L1 as (Q1 & Q2 & Q3). rewrite Q1, andb_false_r. exists s', ev. split; [reflexivity|]. split; [split; auto|].
  assert (D1 : zlen (dl s') <= 1 /\ 0 <= zlen (dl s')) by (unfold dl, zlen; destruct (s_delayed s'); cbn [length]; lia).
  assert (NE : 0 < zlen (s_inflight s') -> s_inflight s' <> []) by (intros X X0; rewrite X0 in X; unfold zlen in X; cbn in X; lia).
  split.
  - intros Np. destruct L2 as [L|[L|[L T]]]; [left; apply NE; lia|contradiction|]. destruct (s_delayed s') as [o|] eqn:D; [|contradiction].
    assert (zlen (dl s') = 1) by (unfold dl; rewrite D; reflexivity). destruct (Z.eq_dec (s_qd s') 1); [right; auto|]. left. apply NE. pose proof (zlen_nonneg (s_inflight s')). lia.
  - intros Z0. split; [|split; [auto|]].
    + intros Hs. destruct (L3 Z0) as [D|[-> _]]; [unfold quiet; now rewrite D|exact Hs].
    + intros I0. destruct L2 as [L|[L|[L T]]]; [|exact L|].
      * exfalso. rewrite I0 in Q2. unfold zlen at 1 in Q2. cbn [length] in Q2. lia.
      * destruct (L3 Z0) as [D|[-> X]]; [contradiction|]. exfalso. rewrite I0 in Q2. unfold zlen at 1 in Q2. cbn [length] in Q2. lia.
Qed.

Lemma step_q subs H s i s' ev : Gs subs H s -> s_count s = length subs -> (exists t, all = (subs ++ reqs (length subs) [i]) ++ t) -> Q s -> Fin s -> no_remove [i] ->
  step pick opt iov_max s i = Some (s', ev) -> Q s' /\ Fin s'.
Proof.
  intros HG C (t & Al) HQ HF NR E. inversion NR as [|? ? N1 _]; subst. destruct i as [lba c ans|k|ans|ans]; cbn [step reqs] in *; [| | |contradiction].
  - rewrite C in E. set (o := Op lba c [length subs]) in *.
    assert (HG1 : Gs (subs ++ [o]) H (set_count (sched s o) (S (length subs)))).
    { destruct HG as (gs & F & HI). exists gs. split.
      - replace (dl (set_count (sched s o) (S (length subs)))) with (dl s); [exact F|]. unfold dl, sched. destruct (is_sync o || s_syncing s); [|destruct (s_last s <=? o_lba o)]; reflexivity.
      - pose proof (sched_Inv subs (concat gs) s o t HI Al) as I1. exact I1. }
    destruct (issue_all_q _ _ (set_count (sched s o) (S (length subs))) ans HG1) as (s2 & e2 & E2 & A & B & _).
    + unfold Q, dl, sched. destruct (is_sync o || s_syncing s); [|destruct (s_last s <=? o_lba o)]; exact HQ.
    + right. congruence.
    + rewrite E2 in E. injection E as <- <-. auto.
  - destruct (nth_error (s_inflight s) k) as [o|] eqn:En; injection E as <- <-; [|auto]. split; [|intros _; right; discriminate].
    destruct HQ as (Q1 & Q2 & Q3). split; [exact Q1|]. cbn [set_timers set_qd set_inflight s_qd s_inflight]. unfold dl in *. cbn [set_timers set_qd set_inflight s_delayed].
    pose proof (remove_nth_perm _ _ _ En) as P. apply Permutation_length in P. cbn [length] in P. pose proof (zlen_nonneg (match s_delayed s with Some o => [o] | None => [] end)).
    rewrite dec_small; unfold zlen in *; lia.
  - destruct (s_timers s) as [|tm] eqn:T; [injection E as <- <-; auto|].
    assert (HG1 : Gs subs H (set_timers s tm)) by (destruct HG as (gs & F & HI); exists gs; split; [exact F|exact HI]).
    destruct (issue_all_q _ _ (set_timers s tm) ans HG1 HQ) as (s2 & e2 & E2 & A & B & _); [right; congruence|]. rewrite E2 in E. injection E as <- <-. auto.
Qed.

Lemma run_q : forall l subs H s s' ev t, Gs subs H s -> s_count s = length subs -> all = (subs ++ reqs (length subs) l) ++ t -> Q s -> Fin s -> no_remove l ->
  run pick opt iov_max s l = Some (s', ev) -> Q s' /\ Fin s'.
Proof.
  induction l as [|i l IH]; intros subs H s s' ev t HG C Al HQ HF NR E; cbn [run] in E; [injection E as <- <-; auto|].
  destruct (step pick opt iov_max s i) as [[s1 e1]|] eqn:E1; [|discriminate]. destruct (run pick opt iov_max s1 l) as [[s2 e2]|] eqn:E2; [|discriminate]. injection E as <- <-.
  rewrite reqs_app in Al. rewrite app_assoc in Al. rewrite <- app_length in Al. inversion NR as [|? ? N1 N2]; subst.
  assert (Al1 : all = (subs ++ reqs (length subs) [i]) ++ reqs (length (subs ++ reqs (length subs) [i])) l ++ t) by (rewrite Al, <- !app_assoc; reflexivity).
  destruct (step_ok subs H s i s1 e1 _ HG C Al1 E1) as (S1 & S2 & _).
  destruct (step_q subs H s i s1 e1 HG C (ex_intro _ _ Al1) HQ HF) as [Q1 F1]; [constructor; [exact N1|constructor]|exact E1|].
  exact (IH _ _ _ _ _ t S1 S2 Al Q1 F1 N2 E2).
Qed.
Lemma step_total subs H s i : Gs subs H s -> s_count s = length subs -> (exists t, all = (subs ++ reqs (length subs) [i]) ++ t) -> Q s -> quiet s -> no_remove [i] -> step pick opt iov_max s i <> None.
Proof.
  intros HG C (t & Al) HQ Hq NR. inversion NR as [|? ? N1 _]; subst. destruct i as [lba c ans|k|ans|ans]; cbn [step reqs] in *; [| | |contradiction].
  - rewrite C. set (o := Op lba c [length subs]) in *.
    assert (HG1 : Gs (subs ++ [o]) H (set_count (sched s o) (S (length subs)))).
    { destruct HG as (gs & F & HI). exists gs. split.
      - replace (dl (set_count (sched s o) (S (length subs)))) with (dl s); [exact F|]. unfold dl, sched. destruct (is_sync o || s_syncing s); [|destruct (s_last s <=? o_lba o)]; reflexivity.
      - pose proof (sched_Inv subs (concat gs) s o t HI Al) as I1. exact I1. }
    destruct (issue_all_q _ _ (set_count (sched s o) (S (length subs))) ans HG1) as (s2 & e2 & E2 & _).
    + unfold Q, dl, sched. destruct (is_sync o || s_syncing s); [|destruct (s_last s <=? o_lba o)]; exact HQ.
    + left. unfold quiet, sched. destruct (is_sync o || s_syncing s); [|destruct (s_last s <=? o_lba o)]; exact Hq.
    + congruence.
  - destruct (nth_error (s_inflight s) k); discriminate.
  - destruct (s_timers s) as [|tm] eqn:T; [discriminate|].
    assert (HG1 : Gs subs H (set_timers s tm)) by (destruct HG as (gs & F & HI); exists gs; split; [exact F|exact HI]).
    destruct (issue_all_q _ _ (set_timers s tm) ans HG1 HQ (or_introl Hq)) as (s2 & e2 & E2 & _). congruence.
Qed.

(** rounds in which the device takes and finishes everything *)
Fixpoint drain (n : nat) : list input := match n with O => [] | S m => Wake [] :: Finish 0 :: drain m end.
Lemma drain_reqs n k : reqs k (drain n) = [].
Proof. induction n; [reflexivity|exact IHn]. Qed.
Lemma drain_q : forall m subs H s, 2 * Z.of_nat (npend s) + zlen (s_inflight s) <= Z.of_nat m -> Gs subs H s -> s_count s = length subs -> (exists t, all = subs ++ t) -> Q s -> quiet s -> Fin s ->
  exists s' ev, run pick opt iov_max s (drain m) = Some (s', ev) /\ npend s' = O /\ s_inflight s' = [].
Proof.
  induction m as [|m IH]; intros subs H s Hm HG C Al HQ Hq HF.
  - exists s, []. split; [reflexivity|]. pose proof (zlen_nonneg (s_inflight s)). split; [lia|]. apply zlen_0_nil. lia.
  - cbn [drain run].
    assert (W : exists s1 e1, step pick opt iov_max s (Wake []) = Some (s1, e1) /\ quiet s1 /\ 2 * Z.of_nat (npend s1) + zlen (s_inflight s1) <= 2 * Z.of_nat (npend s) + zlen (s_inflight s) /\ (s_inflight s1 = [] -> npend s1 = O)).
    { cbn [step]. destruct (s_timers s) as [|tm] eqn:T.
      - exists s, []. split; [reflexivity|]. split; [exact Hq|]. split; [lia|]. intros I0. destruct (Nat.eq_dec (npend s) O) as [|N]; [assumption|]. destruct (HF N); congruence.
      - assert (HG1 : Gs subs H (set_timers s tm)) by (destruct HG as (gs & F & HI); exists gs; split; [exact F|exact HI]).
        destruct (issue_all_q _ _ (set_timers s tm) [] HG1 HQ (or_introl Hq)) as (s2 & e2 & E2 & A & B & D). destruct (D eq_refl) as (D1 & D2 & D3). exists s2, e2. split; [exact E2|]. split; [exact (D1 Hq)|]. split; [exact D2|exact D3]. }
    destruct W as (s1 & e1 & E1 & Hq1 & M1 & I1). rewrite E1. destruct Al as (t & Al).
    destruct (step_ok subs H s (Wake []) s1 e1 t HG C) as (G1 & C1 & _); [cbn [reqs]; rewrite app_nil_r; exact Al|exact E1|]. cbn [reqs] in G1, C1. rewrite app_nil_r in G1, C1.
    destruct (step_q subs H s (Wake []) s1 e1 HG C) as [Q1 F1]; auto; [exists t; cbn [reqs]; rewrite app_nil_r; exact Al|constructor; [exact I|constructor]|].
    destruct (step pick opt iov_max s1 (Finish 0)) as [[s2 e2]|] eqn:E2; [|cbn [step] in E2; destruct (nth_error (s_inflight s1) 0); discriminate].
    destruct (step_ok subs _ s1 (Finish 0) s2 e2 t G1 C1) as (G2 & C2 & _); [cbn [reqs]; rewrite app_nil_r; exact Al|exact E2|]. cbn [reqs] in G2, C2. rewrite app_nil_r in G2, C2.
    destruct (step_q subs _ s1 (Finish 0) s2 e2 G1 C1) as [Q2 F2]; auto; [exists t; cbn [reqs]; rewrite app_nil_r; exact Al|constructor; [exact I|constructor]|].
    assert (X : quiet s2 /\ 2 * Z.of_nat (npend s2) + zlen (s_inflight s2) <= Z.of_nat m).
    { cbn [step] in E2. destruct (s_inflight s1) as [|o r] eqn:Ef; cbn [nth_error] in E2; injection E2 as <- <-.
      - split; [exact Hq1|]. rewrite Ef, I1 by reflexivity. unfold zlen. cbn. lia.
      - split; [exact Hq1|]. cbn [set_timers set_qd set_inflight s_inflight remove_nth]. change (npend (set_timers _ _)) with (npend s1). rewrite zlen_cons in M1. lia. }
    destruct X as [Hq2 M2].
    destruct (IH subs _ s2 M2 G2 C2) as (s3 & e3 & E3 & R1 & R2); auto; [exists t; exact Al|]. rewrite E3. eexists _, _. split; [reflexivity|]. auto.
Qed.
End Inv.
