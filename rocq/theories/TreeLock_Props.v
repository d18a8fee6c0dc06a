(** C100: operations on a tree never deadlock. *)
From Coq Require Import List Arith Bool Lia.
From Verif Require Import TreeLock_Model.
Import ListNotations.

(** * Vocabulary *)

(** A tree at rest: no operation has begun. *)
Record at_rest (s : st) : Prop := mkRest {
  rest_top : up s 0 = None;
  rest_below : forall c p, up s c = Some p -> lev s c < lev s p /\ lev s c < lev s 0;
  rest_balanced : forall c p, up s c = Some p -> p <> 0 -> lev s p = S (lev s c);
  rest_idle : forall t, In t (tasks s) -> exists k, t = Idle k }.

Definition waits_for (s : st) (i n : nat) : Prop :=
  exists t, nth_error (tasks s) i = Some t /\ In n (wants t).
Definition has (s : st) (i n : nat) : Prop :=
  exists t, nth_error (tasks s) i = Some t /\ In n (held t).
Definition exclusive (s : st) (i : nat) : Prop :=
  exists t, nth_error (tasks s) i = Some t /\ writes t = true.
Definition finished (s : st) (i : nat) : Prop := nth_error (tasks s) i = Some Done.
Definition all_finished (s : st) : Prop := forall t, In t (tasks s) -> t = Done.

(** Nobody who has the lock stands in the way of [i]. *)
Definition free_for (s : st) (i n : nat) : Prop :=
  forall j, j <> i -> has s j n -> ~ exclusive s j /\ ~ exclusive s i.

(** * Invariant *)

Definition tinv (s : st) (t : task) : Prop :=
  match t with
  | LookWait n c => up s c = Some n
  | Rng g nx => forall x, nx = Some x -> lev s g <= lev s x
  | RngWait g nx c c' _ _ =>
      up s c = Some g /\
      (forall x, c' = Some x -> up s x = Some g /\ g <> 0) /\
      (forall x, nx = Some x -> lev s g <= lev s x)
  | Fan n kids ws => forall x, In x kids \/ In x ws -> up s x = Some n
  | Whole _ h ws =>
      (forall x, In x h -> x = 0 \/ exists p, up s x = Some p /\ In p h) /\
      (forall x, In x ws -> exists p, up s x = Some p /\ In p h)
  | _ => True
  end.

Record Inv (s : st) : Prop := mkInv {
  i_top : up s 0 = None;
  i_below : forall c p, up s c = Some p -> lev s c < lev s p /\ lev s c < lev s 0;
  i_bal : forall c p, up s c = Some p -> p <> 0 -> lev s p = S (lev s c);
  i_task : forall t, In t (tasks s) -> tinv s t;
  i_compat : forall i j t u n, i <> j -> nth_error (tasks s) i = Some t ->
    nth_error (tasks s) j = Some u -> In n (held t) -> In n (held u) ->
    writes t = false /\ writes u = false }.

Lemma at_rest_inv s : at_rest s -> Inv s.
Proof.
  intros [A B C D]. split; auto.
  - intros t Ht. destruct (D t Ht) as [k ->]. exact I.
  - intros i j t u n _ Ht _ Hn. destruct (D t (nth_error_In _ _ Ht)) as [k ->].
    destruct Hn.
Qed.

Lemma nth_set i t ts j :
  nth_error (set_task i t ts) j =
  if Nat.eq_dec i j then match nth_error ts j with Some _ => Some t | None => None end
  else nth_error ts j.
Proof.
  revert i j. induction ts as [|u r IH]; intros i j.
  - cbn. destruct j; cbn; destruct (Nat.eq_dec i _); auto.
  - destruct i as [|i], j as [|j]; cbn [set_task nth_error]; auto.
    rewrite IH. destruct (Nat.eq_dec i j), (Nat.eq_dec (S i) (S j)); auto; lia.
Qed.

Lemma in_set i t ts u : In u (set_task i t ts) -> u = t \/ In u ts.
Proof.
  revert i. induction ts as [|v r IH]; intros [|i]; cbn; auto.
  - intros [<-|H]; auto.
  - intros [<-|H]; auto. destruct (IH _ H); auto.
Qed.

Lemma grant_held n t t' : grant n t t' ->
  writes t' = writes t /\ In n (wants t) /\
  forall x, In x (held t') -> x = n \/ In x (held t).
Proof.
  destruct 1; cbn; (split; [reflexivity|]); split;
    try (rewrite ?in_app_iff; cbn; tauto);
    intros y; rewrite ?in_app_iff; cbn; try (rewrite ?in_app_iff; cbn); intuition.
Qed.

Lemma grant_inv s n t t' : Inv s -> tinv s t -> grant n t t' -> tinv s t'.
Proof.
  intros I H G. destruct G; cbn in *; auto.
  - intros x Hx. discriminate.
  - intros x [[]|[]].
  - intros x Hx. apply H. rewrite in_app_iff in *. cbn in *. intuition.
  - split; [intros x [<-|[]]; auto | intros x []].
  - destruct H as [H1 H2]. split.
    + intros x [<-|Hx].
      * right. destruct (H2 c) as (p & Hp & Hin). { apply in_or_app. right. now left. }
        exists p. auto.
      * destruct (H1 x Hx) as [->|(p & Hp & Hin)]; auto. right. exists p. auto.
    + intros x Hx. destruct (H2 x) as (p & Hp & Hin).
      { rewrite in_app_iff in *. cbn. tauto. }
      exists p. auto.
Qed.

Lemma own_held P t t' : own P t t' ->
  (held t' = [] \/ writes t' = writes t) /\
  forall x, In x (held t') -> In x (held t).
Proof.
  destruct 1; cbn; (split; [auto|]);
    intros y; rewrite ?in_app_iff; cbn; try (rewrite ?in_app_iff; cbn); tauto.
Qed.

Lemma own_inv s t t' : Inv s -> tinv s t -> own (child_of s) t t' -> tinv s t'.
Proof.
  intros I H O. unfold child_of in O.
  destruct O as [k|n c Hc|n c|g nx c Hc|g nx c x Hc Hx Hg Hne|g nx c|g c x|g c x
                |g x|n kids ws c Hc _ _|n k1 c k2 ws|n c|w h ws c n Hc Hn _ _
                |w h1 c h2 ws Hk H0|t _ _ _]; cbn in *; auto.
  - split; [exact Hc|]. split; [discriminate|exact H].
  - split; [exact Hc|]. split; [|discriminate]. intros y [= <-]. auto.
  - destruct H as (Hc & _ & Hn). intros x Hx. specialize (Hn x Hx).
    pose proof (i_below s I _ _ Hc). lia.
  - destruct H as (Hc & Hx & _). intros y [= <-]. destruct (Hx x eq_refl) as [E G].
    pose proof (i_bal s I _ _ Hc G). pose proof (i_bal s I _ _ E G). lia.
  - discriminate.
  - discriminate.
  - intros x [Hx|[<-|Hx]]; auto.
  - intros x Hx. apply H. rewrite in_app_iff in *. cbn. tauto.
  - intros x [[]|[]].
  - destruct H as [H1 H2]. split; [exact H1|]. intros x [<-|Hx]; eauto.
  - destruct H as [H1 H2].
    assert (K : forall p x, In p (h1 ++ c :: h2) -> up s x = Some p ->
                In x (h1 ++ h2) \/ In x ws -> In p (h1 ++ h2)).
    { intros p x Hp Hu Hin. rewrite in_app_iff in *. cbn in Hp.
      destruct Hp as [Hp|[->|Hp]]; auto. destruct (Hk x Hu) as [A B].
      rewrite in_app_iff in A. tauto. }
    split.
    + intros x Hx. destruct (H1 x) as [->|(p & Hp & Hin)]; auto.
      { rewrite in_app_iff in *. cbn. tauto. }
      right. exists p. split; [exact Hp|]. apply (K p x); auto.
    + intros x Hx. destruct (H2 x Hx) as (p & Hp & Hin).
      exists p. split; [exact Hp|]. apply (K p x); auto.
Qed.

Lemma tinv_same s s' t : up s' = up s -> lev s' = lev s -> tinv s t -> tinv s' t.
Proof. intros A B. unfold tinv. rewrite A, B. auto. Qed.

Lemma compat_set s i t t' n0 : Inv s -> nth_error (tasks s) i = Some t ->
  (held t' = [] \/ writes t' = writes t) ->
  (forall x, In x (held t') -> (x = n0 /\ may_have (tasks s) i n0) \/ In x (held t)) ->
  forall a b u v n, a <> b -> nth_error (set_task i t' (tasks s)) a = Some u ->
    nth_error (set_task i t' (tasks s)) b = Some v -> In n (held u) -> In n (held v) ->
    writes u = false /\ writes v = false.
Proof.
  intros I Ht Hw Hh.
  assert (K : forall b v n, b <> i -> nth_error (tasks s) b = Some v ->
              In n (held t') -> In n (held v) -> writes t' = false /\ writes v = false).
  { intros b v n Hb Hv Hn Hnv. destruct Hw as [E|E]. { rewrite E in Hn. destruct Hn. }
    rewrite E. destruct (Hh n Hn) as [[-> M]|Hn'].
    - destruct (M b v Hb Hv Hnv) as [A B]. rewrite Ht in B. auto.
    - refine (i_compat s I i b t v n _ Ht Hv Hn' Hnv). auto. }
  intros a b u v n Hab Hu Hv Hn Hnv. rewrite nth_set in Hu, Hv.
  destruct (Nat.eq_dec i a) as [<-|Ha], (Nat.eq_dec i b) as [<-|Hb]; try congruence.
  - rewrite Ht in Hu. injection Hu as <-. apply (K b v n); auto.
  - rewrite Ht in Hv. injection Hv as <-. destruct (K a u n); auto.
  - refine (i_compat s I a b u v n Hab Hu Hv Hn Hnv).
Qed.

Lemma restructure_inv s i t up' lev' : Inv s -> nth_error (tasks s) i = Some t ->
  restructure s t up' lev' -> Inv (mkSt up' lev' (tasks s)).
Proof.
  intros I Ht R.
  split; cbn [up lev tasks].
  - exact (r_top _ _ _ _ R).
  - exact (r_below _ _ _ _ R).
  - exact (r_balanced _ _ _ _ R).
  - intros u Hu. destruct (In_nth_error _ _ Hu) as [j Hj].
    pose proof (i_task s I u Hu) as T.
    assert (U : forall x p, up s x = Some p -> In p (held u) ->
                In x (held u) \/ In x (wants u) -> up' x = Some p).
    { intros x p Hx Hp Hin. rewrite <- Hx.
      assert (D : {up' x = up s x} + {up' x <> up s x})
        by (repeat decide equality).
      destruct D as [D|D]; auto. exfalso.
      destruct (r_up _ _ _ _ R x D) as (A & B & C & _). rewrite Hx in C.
      destruct C as [C|C]; [|destruct (C u Hu); contradiction].
      destruct (Nat.eq_dec i j) as [<-|N].
      - rewrite Ht in Hj. injection Hj as <-. tauto.
      - destruct (i_compat s I i j t u p N Ht Hj C Hp) as [E _].
        rewrite (r_writes _ _ _ _ R) in E. discriminate. }
    assert (L : writes u = false -> forall x, In x (held u) -> lev' x = lev s x).
    { intros Hw x Hx. destruct (Nat.eq_dec (lev' x) (lev s x)) as [D|D]; auto. exfalso.
      destruct (r_lev _ _ _ _ R x D) as [C|[C _]]; [destruct (C u Hu); contradiction|].
      destruct (Nat.eq_dec i j) as [<-|N].
      - rewrite Ht in Hj. injection Hj as <-. rewrite (r_writes _ _ _ _ R) in Hw. discriminate.
      - destruct (i_compat s I i j t u x N Ht Hj C Hx) as [E _].
        rewrite (r_writes _ _ _ _ R) in E. discriminate. }
    destruct u as [k|k|n|n c|n c|g nx|g nx c c' got got'|n kids ws|w h ws|]; cbn in *; auto.
    + intros x ->. cbn in L. rewrite !L; auto.
    + destruct T as (T1 & T2 & T3). split; [|split].
      * apply U; auto. destruct got; rewrite ?in_app_iff; cbn; tauto.
      * intros x ->. destruct (T2 x eq_refl) as [A B]. split; auto.
        apply U; auto. destruct got'; rewrite ?in_app_iff; cbn; tauto.
      * intros x ->. cbn in L. rewrite !L; auto.
    + intros x Hx. apply U; auto. tauto.
    + destruct T as (T1 & T2). split.
      * intros x Hx. destruct (T1 x Hx) as [->|(p & Hp & Hin)]; auto. right. eauto.
      * intros x Hx. destruct (T2 x Hx) as (p & Hp & Hin). eauto.
  - exact (i_compat s I).
Qed.

Lemma step_inv s i s' : Inv s -> step s i s' -> Inv s'.
Proof.
  intros I [n t t' Ht G M|t t' Ht O|t up' lev' Ht R].
  - destruct (grant_held _ _ _ G) as (W & _ & H). split; cbn [up lev tasks]; try apply I.
    + intros u Hu. apply (tinv_same s); auto.
      destruct (in_set _ _ _ _ Hu) as [->|Hu']; [|apply I; auto].
      apply (grant_inv s n t); auto. apply I. eapply nth_error_In; eauto.
    + apply (compat_set s i t t' n I Ht); auto.
      intros x Hx. destruct (H x Hx) as [->|?]; auto.
  - destruct (own_held _ _ _ O) as (W & H). split; cbn [up lev tasks]; try apply I.
    + intros u Hu. apply (tinv_same s); auto.
      destruct (in_set _ _ _ _ Hu) as [->|Hu']; [|apply I; auto].
      apply (own_inv s t); auto. apply I. eapply nth_error_In; eauto.
    + apply (compat_set s i t t' 0 I Ht); auto.
  - eapply restructure_inv; eauto.
Qed.

Lemma steps_inv s s' : Inv s -> steps s s' -> Inv s'.
Proof. intros I H. induction H; auto. apply IHsteps. eapply step_inv; eauto. Qed.

(** * The order of locks *)

(** The parent of a node that a task waits for is a node that it has. *)
Lemma want_parent s t n : Inv s -> In t (tasks s) -> In n (wants t) ->
  n = 0 \/ exists p, up s n = Some p /\ In p (held t).
Proof.
  intros I Ht Hn. pose proof (i_task s I t Ht) as T.
  destruct t as [k|k|m|m c|m c|g nx|g nx c c' got got'|m kids ws|w h ws|]; cbn in *;
    try (destruct Hn; fail).
  - destruct Hn as [<-|[]]; auto.
  - destruct Hn as [<-|[]]. right. eauto.
  - right. exists g. split; auto. destruct T as (T1 & T2 & _).
    destruct got, got', c' as [x|]; cbn in *; intuition (subst; auto);
      try (apply (T2 _ eq_refl)).
  - right. exists m. auto.
  - right. destruct T as [_ T]. auto.
Qed.

(** A task that has [n], but not its parent, waits only for lower nodes. *)
Lemma wants_lower s t n m : Inv s -> In t (tasks s) -> In n (held t) ->
  (n = 0 \/ exists p, up s n = Some p /\ ~ In p (held t)) ->
  In m (wants t) -> lev s m < lev s n.
Proof.
  intros I Ht Hn Hp Hm. pose proof (i_task s I t Ht) as T.
  assert (Z : forall p, up s m = Some p -> n = 0 -> lev s m < lev s n).
  { intros p E ->. apply (i_below s I _ _ E). }
  pose proof (i_top s I) as T0.
  destruct t as [k|k|a|a c|a c|g nx|g nx c c' got got'|a kids ws|w h ws|]; cbn in *;
    try (destruct Hn; fail); try (destruct Hm; fail).
  - destruct Hn as [<-|[]], Hm as [<-|[]]. apply (i_below s I _ _ T).
  - destruct T as (T1 & T2 & T3).
    assert (Em : up s m = Some g).
    { destruct got, got', c' as [x|]; cbn in *; intuition (subst; auto);
        try (apply (T2 _ eq_refl)). }
    destruct Hp as [Hp|(p & Ep & Np)]; [apply (Z _ Em Hp)|].
    pose proof (i_below s I _ _ Em).
    destruct Hn as [<-|Hn]; [lia|]. rewrite !in_app_iff in Hn.
    destruct Hn as [Hn|[Hn|Hn]].
    + destruct nx as [x|]; [|destruct Hn]. destruct Hn as [<-|[]].
      specialize (T3 _ eq_refl). lia.
    + destruct got; [|destruct Hn]. destruct Hn as [<-|[]]. exfalso. apply Np.
      rewrite T1 in Ep. injection Ep as <-. auto.
    + destruct got'; [|destruct Hn]. destruct c' as [x|]; [|destruct Hn].
      destruct Hn as [<-|[]]. exfalso. apply Np.
      rewrite (proj1 (T2 _ eq_refl)) in Ep. injection Ep as <-. auto.
  - assert (Em : up s m = Some a) by (apply T; auto).
    destruct Hp as [Hp|(p & Ep & Np)]; [apply (Z _ Em Hp)|].
    destruct Hn as [<-|Hn]; [apply (i_below s I _ _ Em)|]. exfalso. apply Np.
    rewrite T in Ep; auto. injection Ep as <-. auto.
  - destruct T as [T1 T2]. destruct (T2 m Hm) as (q & Eq & _).
    destruct Hp as [Hp|(p & Ep & Np)]; [apply (Z _ Eq Hp)|].
    destruct (T1 n Hn) as [->|(p' & Ep' & Hin)]; [congruence|].
    rewrite Ep in Ep'. injection Ep' as <-. contradiction.
Qed.

Lemma lowest_want s : (exists t n, In t (tasks s) /\ In n (wants t)) ->
  exists n, (exists t, In t (tasks s) /\ In n (wants t)) /\
    forall u m, In u (tasks s) -> In m (wants u) -> lev s n <= lev s m.
Proof.
  intros (t & n & Ht & Hn).
  remember (lev s n) as k eqn:E. revert t n Ht Hn E.
  induction k as [k IH] using lt_wf_ind. intros t n Ht Hn E.
  set (all := flat_map wants (tasks s)).
  destruct (existsb (fun m => lev s m <? k) all) eqn:X.
  - apply existsb_exists in X as (m & Hm & Hlt). apply Nat.ltb_lt in Hlt.
    unfold all in Hm. apply in_flat_map in Hm as (u & Hu & Hm).
    exact (IH _ Hlt u m Hu Hm eq_refl).
  - exists n. split; [eauto|]. intros u m Hu Hm.
    destruct (Nat.ltb_spec (lev s m) k) as [L|L]; [|lia]. exfalso.
    assert (Y : existsb (fun m => lev s m <? k) all = true).
    { apply existsb_exists. exists m. split; [|now apply Nat.ltb_lt].
      apply in_flat_map. eauto. }
    congruence.
Qed.

(** * Theorems *)

(** A lock that one task has exclusively, no other task has. *)
Theorem C100_exclusive : forall s0 s i j n,
  at_rest s0 -> steps s0 s ->
  has s i n -> exclusive s i -> has s j n -> i = j.
Proof.
  intros s0 s i j n R S (t & Ht & Hn) (t' & Ht' & W) (u & Hu & Hnu).
  rewrite Ht in Ht'. injection Ht' as <-.
  destruct (Nat.eq_dec i j) as [|N]; auto.
  pose proof (steps_inv _ _ (at_rest_inv _ R) S) as I.
  destruct (i_compat s I i j t u n N Ht Hu Hn Hnu). congruence.
Qed.

(** While anybody waits and everybody waits, there is a lock that each of
    those who wait for it can have at once. *)
Theorem C100_no_deadlock : forall s0 s,
  at_rest s0 -> steps s0 s ->
  (exists i n, waits_for s i n) ->
  (forall i t, nth_error (tasks s) i = Some t -> t = Done \/ wants t <> []) ->
  exists n, (exists i, waits_for s i n) /\
            forall i, waits_for s i n -> free_for s i n.
Proof.
  intros s0 s R S W All.
  pose proof (steps_inv _ _ (at_rest_inv _ R) S) as I.
  destruct (lowest_want s) as (n & (t & Ht & Hn) & Low).
  { destruct W as (i & n & t & Ht & Hn). exists t, n. split; auto.
    eapply nth_error_In; eauto. }
  exists n. split.
  { destruct (In_nth_error _ _ Ht) as [i Hi]. exists i, t. auto. }
  clear t Ht Hn. intros i (t & Hi & Hn) j Nij (u & Hj & Hnu).
  pose proof (nth_error_In _ _ Hi) as Ht. pose proof (nth_error_In _ _ Hj) as Hu.
  assert (C : writes t = false /\ writes u = false).
  { destruct (All j u Hj) as [->|Hw]; [destruct Hnu|].
    destruct (wants u) as [|m r] eqn:Ew; [congruence|].
    assert (Hm : In m (wants u)) by (rewrite Ew; now left).
    pose proof (Low u m Hu Hm) as L.
    destruct (want_parent s t n I Ht Hn) as [->|(p & Ep & Hp)].
    - pose proof (wants_lower s u 0 m I Hu Hnu (or_introl eq_refl) Hm). lia.
    - destruct (in_dec Nat.eq_dec p (held u)) as [Hpu|Hpu].
      + refine (i_compat s I i j t u p _ Hi Hj Hp Hpu). auto.
      + assert (X : lev s m < lev s n).
        { refine (wants_lower s u n m I Hu Hnu _ Hm). right. eauto. }
        lia. }
  destruct C as [Ct Cu]. split; intros (v & Hv & Wv); congruence.
Qed.

(** Two tasks that wait for the same node both only read: no queue at a node
    has a writer in it besides another. *)
Theorem C100_queue : forall s0 s i j n,
  at_rest s0 -> steps s0 s -> i <> j ->
  waits_for s i n -> waits_for s j n -> n <> 0 ->
  ~ exclusive s i /\ ~ exclusive s j.
Proof.
  intros s0 s i j n R S N (t & Hi & Hn) (u & Hj & Hm) N0.
  pose proof (steps_inv _ _ (at_rest_inv _ R) S) as I.
  pose proof (nth_error_In _ _ Hi) as Ht. pose proof (nth_error_In _ _ Hj) as Hu.
  destruct (want_parent s t n I Ht Hn) as [|(p & Ep & Hp)]; [contradiction|].
  destruct (want_parent s u n I Hu Hm) as [|(q & Eq & Hq)]; [contradiction|].
  rewrite Ep in Eq. injection Eq as <-.
  destruct (i_compat s I i j t u p N Hi Hj Hp Hq) as [A B].
  split; intros (v & Hv & Wv); congruence.
Qed.

(** * Every operation can be brought to its end *)

Definition cost (t : task) : nat :=
  match t with
  | Idle _ => 3 | Top _ => 2 | Done => 0
  | _ => 1 + length (wants t)
  end.
Definition costs (ts : list task) : nat := list_sum (map cost ts).

Lemma costs_set i t t' ts : nth_error ts i = Some t -> cost t' < cost t ->
  costs (set_task i t' ts) < costs ts.
Proof.
  unfold costs, list_sum. revert i. induction ts as [|u r IH]; intros [|i]; cbn; try discriminate.
  - intros [= ->]. lia.
  - intros H L. specialize (IH i H L). lia.
Qed.

Lemma grantable t n : In n (wants t) -> exists t', grant n t t' /\ cost t' < cost t.
Proof.
  destruct t as [k|k|m|m c|m c|g nx|g nx c c' got got'|m kids ws|w h ws|]; cbn;
    try (intros []; fail).
  - intros [<-|[]]. destruct k as [| | |w]; eexists; (split; [constructor|cbn; lia]).
  - intros [<-|[]]. eexists. split; [constructor|cbn; lia].
  - intros H. apply in_app_iff in H as [H|H].
    + destruct got; [destruct H|]. destruct H as [<-|[]].
      eexists. split; [constructor|cbn; destruct got', c'; cbn; lia].
    + destruct got'; [destruct H|]. destruct c' as [x|]; [|destruct H].
      destruct H as [<-|[]].
      eexists. split; [constructor|cbn; destruct got; cbn; lia].
  - intros H. apply in_split in H as (w1 & w2 & ->).
    eexists. split; [constructor|cbn; rewrite !app_length; cbn; lia].
  - intros H. apply in_split in H as (w1 & w2 & ->).
    eexists. split; [constructor|cbn; rewrite !app_length; cbn; lia].
Qed.

Lemma advance s : Inv s -> ~ all_finished s ->
  (exists n, (exists i, waits_for s i n) /\
            forall i, waits_for s i n -> free_for s i n) \/
  (exists i t, nth_error (tasks s) i = Some t /\ t <> Done /\ wants t = []) ->
  exists i s', step s i s' /\ costs (tasks s') < costs (tasks s).
Proof.
  intros I _ [(n & (i & t & Hi & Hn) & F)|(i & t & Hi & Nd & Ew)].
  - destruct (grantable t n Hn) as (t' & G & L).
    exists i. eexists. split.
    + apply (s_grant s i n t t' Hi G). intros j u Hj Hu Hnu.
      destruct (F i (ex_intro _ t (conj Hi Hn)) j Hj (ex_intro _ u (conj Hu Hnu))) as [A B].
      rewrite Hi. split.
      * destruct (writes u) eqn:W; auto. exfalso. apply A. exists u. auto.
      * destruct (writes t) eqn:W; auto. exfalso. apply B. exists t. auto.
    + cbn. apply (costs_set i t); auto.
  - assert (D : (exists k, t = Idle k) \/ forall k, t <> Idle k).
    { destruct t; try (right; intros ?; discriminate). left. eauto. }
    destruct D as [[k ->]|D].
    + exists i. eexists. split; [apply (s_own s i _ (Top k) Hi); constructor|].
      cbn. apply (costs_set i (Idle k)); auto.
    + exists i. eexists. split; [apply (s_own s i t Done Hi); apply o_end; auto|].
      cbn. apply (costs_set i t); auto. destruct t; cbn; try lia. congruence.
Qed.

(** Whatever has happened, all operations can still run to their end. *)
Theorem C100_completable : forall s0 s,
  at_rest s0 -> steps s0 s ->
  exists s', steps s s' /\ all_finished s'.
Proof.
  intros s0 s R S. remember (costs (tasks s)) as k eqn:E. revert s S E.
  induction k as [k IH] using lt_wf_ind. intros s S ->.
  pose proof (steps_inv _ _ (at_rest_inv _ R) S) as I.
  destruct (existsb (fun t => match t with Done => false | _ => true end) (tasks s)) eqn:X.
  2:{ exists s. split; [constructor|]. intros t Ht.
      assert (Y : (fun t => match t with Done => false | _ => true end) t = false).
      { destruct ((fun t => match t with Done => false | _ => true end) t) eqn:Z; auto.
        rewrite <- X. symmetry. apply existsb_exists. eauto. }
      destruct t; try discriminate. reflexivity. }
  apply existsb_exists in X as (t & Ht & Nd).
  assert (Nd' : t <> Done) by (intros ->; discriminate). clear Nd.
  assert (A : exists i s', step s i s' /\ costs (tasks s') < costs (tasks s)).
  { apply advance; [exact I|intros F; apply Nd', F, Ht|].
    destruct (existsb (fun t => match t with Done => false
        | _ => match wants t with [] => true | _ => false end end) (tasks s)) eqn:X.
    - right. apply existsb_exists in X as (u & Hu & Hx).
      destruct (In_nth_error _ _ Hu) as [i Hi]. exists i, u. split; auto.
      split; [intros ->; discriminate|].
      destruct (wants u) eqn:W; auto. destruct u; discriminate.
    - left. assert (All : forall i u, nth_error (tasks s) i = Some u -> u = Done \/ wants u <> []).
      { intros i u Hu. apply nth_error_In in Hu.
        destruct (wants u) eqn:W; [|right; discriminate]. left.
        destruct u; auto; exfalso; rewrite <- Bool.not_true_iff_false in X; apply X;
          apply existsb_exists; eexists; (split; [exact Hu|]); cbv beta iota; rewrite W; auto. }
      apply (C100_no_deadlock s0); auto.
      destruct (In_nth_error _ _ Ht) as [i Hi].
      destruct (All i t Hi) as [|W]; [contradiction|].
      destruct (wants t) as [|n r] eqn:Ew; [congruence|].
      exists i, n, t. split; auto. rewrite Ew. now left. }
  destruct A as (i & s1 & St & L).
  assert (S1 : steps s0 s1).
  { clear - S St. induction S; [econstructor; [eauto|constructor]|].
    econstructor; eauto. }
  destruct (IH _ L s1 S1 eq_refl) as (s' & Hs & Hf).
  exists s'. split; auto. econstructor; eauto.
Qed.

(** * Example: an insertion splits a leaf while a range query waits for the
    root, which it cannot have yet. *)

Definition up1 (n : nat) : option nat :=
  match n with 1 => Some 0 | 2 | 3 => Some 1 | _ => None end.
Definition up2 (n : nat) : option nat :=
  match n with 1 => Some 0 | 2 | 3 | 4 => Some 1 | _ => None end.
Definition lev1 (n : nat) : nat := match n with 0 => 3 | 1 => 2 | _ => 1 end.
Definition ex0 : st := mkSt up1 lev1 [Idle SFan; Idle SRng; Idle SLook].
Definition ex1 : st :=
  mkSt up2 lev1 [Fan 1 [2] []; RngWait 0 None 1 None false false; LookWait 0 1].

Local Ltac own_ i := eapply steps_trans;
  [eapply (s_own _ i); [reflexivity|]; econstructor; cbn; try reflexivity; try tauto | cbn].
Local Ltac grant_ i n := eapply steps_trans;
  [eapply (s_grant _ i n); [reflexivity| |]; [|
     intros [|[|[|[|j]]]] u Hj Hu; cbn in Hu; try discriminate;
     injection Hu as <-; cbn; try tauto; intuition congruence] | cbn].

Example C100_ex : at_rest ex0 /\ steps ex0 ex1 /\
  waits_for ex1 1 1 /\ ~ free_for ex1 1 1 /\ waits_for ex1 2 1.
Proof.
  split; [|split; [|split; [|split]]].
  - split; cbn.
    + reflexivity.
    + intros [|[|[|[|c]]]] p; cbn; try discriminate; intros [= <-]; cbn; lia.
    + intros [|[|[|[|c]]]] p; cbn; try discriminate; intros [= <-]; cbn; lia.
    + intros t [<-|[<-|[<-|[]]]]; eauto.
  - own_ 0. grant_ 0 0. { constructor. }
    eapply steps_trans; [eapply (s_own _ 0); [reflexivity|]; apply (o_fan _ 0 [] [] 1); [reflexivity|cbn; tauto|cbn; tauto]|cbn].
    grant_ 0 1. { apply (g_fan_child 0 [] [] 1 []). }
    eapply steps_trans; [eapply (s_own _ 0); [reflexivity|]; apply o_fan_down|cbn].
    eapply steps_trans; [eapply (s_own _ 0); [reflexivity|]; apply (o_fan _ 1 [] [] 2); [reflexivity|cbn; tauto|cbn; tauto]|cbn].
    grant_ 0 2. { apply (g_fan_child 1 [] [] 2 []). }
    own_ 1. grant_ 1 0. { constructor. }
    eapply steps_trans; [eapply (s_own _ 1); [reflexivity|]; apply (o_rng _ 0 None 1); reflexivity|cbn].
    own_ 2. grant_ 2 0. { constructor. }
    eapply steps_trans; [eapply (s_own _ 2); [reflexivity|]; apply (o_look _ 0 1); reflexivity|cbn].
    eapply steps_trans; [|apply steps_refl].
    match goal with |- step ?s _ _ =>
      change ex1 with (mkSt up2 lev1 (tasks s)); apply (s_restructure s 0 _ up2 lev1 eq_refl)
    end. split; cbn.
    + reflexivity.
    + intros [|[|[|[|[|x]]]]]; cbn; try congruence. intros _.
      split; [intuition congruence|]. split; [tauto|]. split; [|auto].
      intros u [<-|[<-|[<-|[]]]]; cbn; intuition congruence.
    + congruence.
    + reflexivity.
    + intros [|[|[|[|[|c]]]]] p; cbn; try discriminate; intros [= <-]; cbn; lia.
    + intros [|[|[|[|[|c]]]]] p; cbn; try discriminate; intros [= <-]; cbn; lia.
  - eexists. split; [reflexivity|]. cbn. auto.
  - intros F. destruct (F 0) as [A _]; [discriminate| |].
    + eexists. split; [reflexivity|]. cbn. auto.
    + apply A. eexists. split; reflexivity.
  - eexists. split; [reflexivity|]. cbn. auto.
Qed.

(** Locking a child of a node that somebody else has, without having the node:
    what the theorems exclude.  Two operations that lock leaves 2 and 3 in
    opposite orders would stop each other. *)
Example C100_ex_crossed : forall s0 s, at_rest s0 -> steps s0 s ->
  ~ (exclusive s 0 /\ exclusive s 1 /\ has s 0 2 /\ waits_for s 0 3 /\
     has s 1 3 /\ waits_for s 1 2 /\ length (tasks s) = 2).
Proof.
  intros s0 s R S (E0 & E1 & H0 & W0 & H1 & W1 & L).
  destruct (C100_no_deadlock s0 s R S) as (n & (i & Wi) & F); [eauto| |].
  - intros [|[|i]] t Ht.
    + destruct W0 as (t' & Ht' & Hn). rewrite Ht in Ht'. injection Ht' as <-.
      right. intros E. rewrite E in Hn. destruct Hn.
    + destruct W1 as (t' & Ht' & Hn). rewrite Ht in Ht'. injection Ht' as <-.
      right. intros E. rewrite E in Hn. destruct Hn.
    + exfalso. assert (H : nth_error (tasks s) (2 + i) <> None)
        by (cbn [plus]; rewrite Ht; discriminate).
      apply nth_error_Some in H. lia.
  - pose proof (steps_inv _ _ (at_rest_inv _ R) S) as I.
    destruct W0 as (t & Ht & Hw0), W1 as (u & Hu & Hw1).
    destruct H0 as (t' & Ht' & Hh0), H1 as (u' & Hu' & Hh1).
    rewrite Ht in Ht'. injection Ht' as <-. rewrite Hu in Hu'. injection Hu' as <-.
    pose proof (nth_error_In _ _ Ht) as It. pose proof (nth_error_In _ _ Hu) as Iu.
    destruct E0 as (t' & Ht' & Wt). rewrite Ht in Ht'. injection Ht' as <-.
    assert (X : lev s 2 < lev s 3).
    { refine (wants_lower s u 3 2 I Iu Hh1 _ Hw1).
      destruct (want_parent s t 3 I It Hw0) as [|(p & Ep & Hp)]; [discriminate|].
      right. exists p. split; auto. intros Hpu.
      destruct (i_compat s I 0 1 t u p); auto. congruence. }
    assert (Y : lev s 3 < lev s 2).
    { refine (wants_lower s t 2 3 I It Hh0 _ Hw0).
      destruct (want_parent s u 2 I Iu Hw1) as [|(p & Ep & Hp)]; [discriminate|].
      right. exists p. split; auto. intros Hpu.
      destruct (i_compat s I 0 1 t u p); auto. congruence. }
    lia.
Qed.

Print Assumptions C100_exclusive.
Print Assumptions C100_no_deadlock.
Print Assumptions C100_queue.
Print Assumptions C100_completable.
