(** C09 sync barrier, C10 exactly once and no starvation, C11 LBA order, C12 coalescing, C59 removal of a disk. *)
From Verif Require Import Common Sched_Model Sched_Proofs.
From Coq Require Import Permutation.

(** * Specification

    A history is a list of [input]s; the requests in it are numbered from 0 in the order of submission. *)
Definition requests (l : list input) : list op := reqs 0 l.
(** every LBA is nonnegative, every buffer a whole number of blocks, no request has more buffers than the system allows *)
Definition legal (iov_max : option Z) (l : list input) : Prop :=
  Forall (fun o => 0 <= o_lba o /\ legal_cmd iov_max (o_cmd o)) (requests l).
(** the numbers of the requests whose operations left the scheduler (were issued to the device, or cancelled), in order *)
Definition order (ev : list event) : list nat := flat_map o_senders (flat_map taken ev).
Definition issued_ids (ev : list event) : list nat := flat_map o_senders (flat_map issued ev).
Definition answered_ids (ev : list event) : list nat := flat_map o_senders (flat_map notified ev).
Definition waiting_ids (s : inner) : list nat := flat_map o_senders (dl s ++ pending s).
(** requests with LBA between [lo] and [hi] come in strictly increasing LBA order *)
Definition in_order (rs : list op) (lo hi : Z) : Prop :=
  forall a b x y, (a < b)%nat -> nth_error rs a = Some x -> nth_error rs b = Some y -> is_sync x = false -> is_sync y = false ->
    lo <= o_lba x <= hi -> lo <= o_lba y <= hi -> o_lba x < o_lba y.

(** * Connection *)
Lemma reqs_nth : forall l n k o, nth_error (reqs n l) k = Some o -> o_senders o = [(n + k)%nat].
Proof.
  induction l as [|i l IH]; intros n k o E; cbn [reqs] in E; [destruct k; discriminate|]. destruct i; try (eapply IH; exact E).
  destruct k; cbn [nth_error] in E; [injection E as <-; cbn; now rewrite Nat.add_0_r|]. apply IH in E. rewrite E. f_equal. lia.
Qed.
Lemma reqs_NoDup l : NoDup (requests l).
Proof.
  apply NoDup_nth_error. intros i j Li E. apply nth_error_Some in Li. destruct (nth_error (requests l) i) as [o|] eqn:Ei; [|contradiction]. symmetry in E.
  apply reqs_nth in Ei. apply reqs_nth in E. rewrite Ei in E. injection E as E. lia.
Qed.
Definition GPof (rs : list op) (x y : op) : Prop :=
  exists a b, (a < b)%nat /\ nth_error rs a = Some x /\ nth_error rs b = Some y /\ is_sync x = false /\ is_sync y = false /\ o_lba x < o_lba y /\ in_order rs (o_lba x) (o_lba y).

Section Connect.
Context (pick : list op -> nat) (PO : pick_ok pick) (opt : Z) (iov_max : option Z).
Context (l : list input) (L : legal iov_max l).

Lemma GPlt' : forall i j, GPof (requests l) i j -> o_lba i < o_lba j.
Proof. intros i j (a & b & _ & _ & _ & _ & _ & H & _). exact H. Qed.
Lemma GPmid' : forall i j k, GPof (requests l) i j -> In k (requests l) -> is_sync k = false -> o_lba i < o_lba k <= o_lba j -> GPof (requests l) i k.
Proof.
  intros i j k (a & b & Lab & Ea & Eb & S1 & S2 & Lt & IO) Ik Sk Lk. apply In_nth_error in Ik. destruct Ik as [c Ec]. exists a, c.
  assert (a < c)%nat. { destruct (lt_eq_lt_dec a c) as [[H|H]|H]; [exact H| |].
    - subst c. rewrite Ea in Ec. injection Ec as <-. lia.
    - pose proof (IO c a k i H Ec Ea Sk S1). lia. }
  split; [exact H|]. repeat (split; [first [assumption|lia]|]). intros a' b' x y Lxy Ex Ey Sx Sy Rx Ry. apply (IO a' b' x y Lxy Ex Ey Sx Sy); lia.
Qed.
Lemma GPpos' : forall i j p1 p2, GPof (requests l) i j -> requests l = p1 ++ j :: p2 -> In i p1.
Proof.
  intros i j p1 p2 (a & b & Lab & Ea & Eb & _) E.
  assert (Ej : nth_error (requests l) (length p1) = Some j) by (rewrite E, nth_error_app2, Nat.sub_diag by lia; reflexivity).
  pose proof (reqs_nth _ _ _ _ Ej) as A. pose proof (reqs_nth _ _ _ _ Eb) as B. rewrite A in B. injection B as B. cbn in B. subst b.
  rewrite E in Ea. rewrite nth_error_app1 in Ea by lia. eapply nth_error_In; exact Ea.
Qed.
Lemma GPns' : forall i j, GPof (requests l) i j -> is_sync i = false /\ is_sync j = false.
Proof. intros i j (a & b & _ & _ & _ & H1 & H2 & _). auto. Qed.
Lemma LBA0' : Forall (fun o => 0 <= o_lba o) (requests l).
Proof. eapply Forall_impl; [|exact L]. cbn. tauto. Qed.
Lemma LEG' : Forall (fun o => legal_cmd iov_max (o_cmd o)) (requests l).
Proof. eapply Forall_impl; [|exact L]. cbn. tauto. Qed.

Definition G := Gs iov_max (requests l) (GPof (requests l)).

Lemma run_all s ev : run pick opt iov_max new_inner l = Some (s, ev) ->
  G (requests l) (flat_map taken ev) s /\ s_count s = length (requests l) /\
  Permutation (flat_map issued ev) (s_inflight s ++ flat_map notified ev) /\
  (no_remove l -> flat_map taken ev = flat_map issued ev /\ s_remover s = false).
Proof.
  intros E.
  destruct (run_ok pick PO opt iov_max (requests l) (GPof (requests l)) GPlt' GPmid' GPpos' LBA0' GPns' (reqs_NoDup l) LEG' l [] [] new_inner s ev [] (new_Gs iov_max _ _) eq_refl) as (A & B & C & D).
  - cbn [app length]. unfold requests. now rewrite app_nil_r.
  - exact E.
  - cbn [app length] in *. split; [exact A|]. split; [exact B|]. split; [exact C|auto].
Qed.

Lemma ids_groups gs H : Forall2 (merged iov_max) gs H -> flat_map o_senders H = flat_map o_senders (concat gs).
Proof. induction 1 as [|g o gs H M F IH]; [reflexivity|]. cbn [flat_map concat]. rewrite flat_map_app, IH. f_equal. apply M. Qed.

Lemma flat_split : forall raw h1 i h2, (forall o, In o raw -> exists k, o_senders o = [k]) -> flat_map o_senders raw = h1 ++ i :: h2 ->
  exists r1 o r2, raw = r1 ++ o :: r2 /\ flat_map o_senders r1 = h1 /\ o_senders o = [i].
Proof.
  induction raw as [|o raw IH]; intros h1 i h2 S E; cbn [flat_map] in E; [destruct h1; discriminate|].
  destruct (S o (or_introl eq_refl)) as [k Ek]. rewrite Ek in E. cbn [app] in E. destruct h1 as [|h h1]; cbn [app] in E; injection E as -> E.
  - exists [], o, raw. auto.
  - destruct (IH h1 i h2) as (r1 & o' & r2 & -> & E1 & E2); [intros; apply S; now right|exact E|]. exists (o :: r1), o', r2. split; [reflexivity|]. cbn [flat_map]. rewrite Ek, E1. auto.
Qed.

Lemma raw_in gs s o : Inv (requests l) (GPof (requests l)) (requests l) (concat gs) s -> In o (concat gs) -> In o (requests l).
Proof. intros HI H. eapply Inv_in; [exact HI|auto]. Qed.
Lemma req_single o : In o (requests l) -> exists k, o_senders o = [k] /\ nth_error (requests l) k = Some o.
Proof. intros H. apply In_nth_error in H. destruct H as [k E]. exists k. split; [apply (reqs_nth _ _ _ _ E)|exact E]. Qed.
End Connect.

Lemma seq_ids : forall l n, flat_map o_senders (reqs n l) = seq n (length (reqs n l)).
Proof. induction l as [|i r IH]; intros n; [reflexivity|]. cbn [reqs]. destruct i; cbn [flat_map length seq app o_senders]; try apply IH. f_equal. apply IH. Qed.
Lemma reqs_take l k : flat_map o_senders (firstn k (requests l)) = seq 0 (min k (length (requests l))).
Proof.
  rewrite <- (firstn_length k). assert (E : forall rs n, (forall i o, nth_error rs i = Some o -> o_senders o = [(n + i)%nat]) -> flat_map o_senders rs = seq n (length rs)).
  { induction rs as [|o rs IH]; intros n H; [reflexivity|]. cbn [flat_map length seq]. rewrite (H O o eq_refl), Nat.add_0_r. cbn [app]. f_equal. apply IH. intros i x Ei. rewrite (H (S i) x Ei). f_equal. lia. }
  apply E. intros i o Ei. apply (reqs_nth l 0 i o). fold (requests l). rewrite <- (firstn_skipn k (requests l)). rewrite nth_error_app1; [exact Ei|]. apply nth_error_Some. congruence.
Qed.

(** * C09 *)

(** When the sync with number [i] is issued, the requests that went before it are exactly those submitted before it. *)
Theorem C09_sync_is_a_barrier pick opt iov_max l s ev h1 i h2 lba sn :
  pick_ok pick -> legal iov_max l -> run pick opt iov_max new_inner l = Some (s, ev) ->
  order ev = h1 ++ i :: h2 -> nth_error (requests l) i = Some (Op lba SyncAll sn) -> Permutation h1 (seq 0 i).
Proof.
  intros PO L E Eo Ei. destruct (run_all pick PO opt iov_max l L s ev E) as ((gs & F & HI) & _).
  pose proof (ids_groups _ _ _ F) as Eg. rewrite flat_map_app in Eg. fold (order ev) in Eg. rewrite Eo, <- app_assoc in Eg. cbn [app] in Eg. symmetry in Eg.
  apply flat_split in Eg. 2:{ intros o Io. destruct (req_single l o (raw_in l gs s o HI Io)) as (k & Ek & _). eauto. }
  destruct Eg as (r1 & o & r2 & Er & E1 & E2). pose proof HI as (_ & _ & _ & _ & _ & _ & B & _).
  assert (Io : In o (requests l)) by (apply (raw_in l gs s o HI); rewrite Er, in_app_iff; right; left; reflexivity).
  destruct (req_single l o Io) as (k & Ek & En). rewrite E2 in Ek. injection Ek as <-. rewrite Ei in En. injection En as <-.
  destruct (B _ _ _ Er eq_refl) as (p1 & p2 & Ep & Pp).
  assert (Lp : length p1 = i).
  { assert (X : nth_error (requests l) (length p1) = Some (Op lba SyncAll sn)) by (rewrite Ep, nth_error_app2, Nat.sub_diag by lia; reflexivity).
    apply reqs_nth in X. apply reqs_nth in Ei. rewrite Ei in X. injection X as X. lia. }
  rewrite <- E1. assert (Es : seq 0 i = flat_map o_senders p1).
  { pose proof (reqs_take l i) as T. rewrite Ep in T. rewrite firstn_app, <- Lp, Nat.sub_diag, firstn_all in T. cbn [firstn] in T. rewrite app_nil_r in T. rewrite T. f_equal. rewrite app_length. lia. }
  rewrite Es. symmetry. now apply Permutation_flat_map.
Qed.

(** * C10 *)

(** At any time every request submitted has left the scheduler once, or waits in it once. *)
Theorem C10_exactly_once pick opt iov_max l s ev :
  pick_ok pick -> legal iov_max l -> run pick opt iov_max new_inner l = Some (s, ev) ->
  Permutation (order ev ++ waiting_ids s) (seq 0 (length (requests l))).
Proof.
  intros PO L E. destruct (run_all pick PO opt iov_max l L s ev E) as ((gs & F & HI) & _). pose proof (ids_groups _ _ _ F) as Eg. rewrite flat_map_app in Eg. fold (order ev) in Eg.
  unfold waiting_ids. rewrite flat_map_app, app_assoc, Eg, <- flat_map_app, <- seq_ids. apply Permutation_flat_map. destruct HI as ((pre & Es & P) & _). fold (requests l). rewrite Es, P. unfold pending. now rewrite <- !app_assoc.
Qed.
(** Every operation issued is in flight or its requesters were given the device's answer, once. *)
Theorem C10_answered_once pick opt iov_max l s ev :
  pick_ok pick -> legal iov_max l -> run pick opt iov_max new_inner l = Some (s, ev) ->
  Permutation (issued_ids ev) (flat_map o_senders (s_inflight s) ++ answered_ids ev).
Proof.
  intros PO L E. destruct (run_all pick PO opt iov_max l L s ev E) as (_ & _ & P & _). unfold issued_ids, answered_ids. rewrite <- flat_map_app. now apply Permutation_flat_map.
Qed.

Lemma new_Q opt : 2 <= opt -> Q opt new_inner /\ Fin new_inner.
Proof. intros. split; [repeat split; cbn; lia|]. intros X. now elim X. Qed.

(** Nothing that waits is forgotten: something is in flight, or a wake-up is coming. *)
Theorem C10_no_lost_wakeup pick opt iov_max l s ev :
  pick_ok pick -> 2 <= opt < 2 ^ 32 -> legal iov_max l -> no_remove l -> run pick opt iov_max new_inner l = Some (s, ev) ->
  waiting_ids s <> [] -> s_inflight s <> [] \/ s_timers s <> O.
Proof.
  intros PO O2 L NR E W. destruct (new_Q opt ltac:(lia)) as [Q0 F0].
  destruct (run_q pick PO opt iov_max (requests l) (GPof (requests l)) (GPlt' l) (GPmid' l) (GPpos' l) (LBA0' iov_max l L) (GPns' l) (reqs_NoDup l) (LEG' iov_max l L) O2 l [] [] new_inner s ev [] (new_Gs iov_max _ _) eq_refl) as [_ HF]; auto.
  - cbn [app length]. unfold requests. now rewrite app_nil_r.
  - apply HF. intros Z0. apply W. unfold waiting_ids, npend in *. destruct (pending s); [|cbn in Z0; lia]. destruct (dl s); [reflexivity|cbn in Z0; lia].
Qed.

(** Once submissions stop and the device takes and finishes what it is given, every request is issued and answered. *)
Theorem C10_no_starvation pick opt iov_max l s ev :
  pick_ok pick -> 2 <= opt < 2 ^ 32 -> legal iov_max l -> no_remove l -> run pick opt iov_max new_inner l = Some (s, ev) ->
  (forall o, s_delayed s = Some o -> is_sync o = false) ->
  exists m s' ev', run pick opt iov_max s (drain m) = Some (s', ev') /\ waiting_ids s' = [] /\ s_inflight s' = [] /\
    Permutation (answered_ids (ev ++ ev')) (seq 0 (length (requests l))).
Proof.
  intros PO O2 L NR E Hq. destruct (new_Q opt ltac:(lia)) as [Q0 F0].
  assert (Al : requests l = ([] ++ reqs (@length op []) l) ++ []) by (cbn [app length]; unfold requests; now rewrite app_nil_r).
  destruct (run_q pick PO opt iov_max (requests l) (GPof (requests l)) (GPlt' l) (GPmid' l) (GPpos' l) (LBA0' iov_max l L) (GPns' l) (reqs_NoDup l) (LEG' iov_max l L) O2 l [] [] new_inner s ev [] (new_Gs iov_max _ _) eq_refl Al Q0 F0 NR E) as [HQ HF].
  destruct (run_all pick PO opt iov_max l L s ev E) as (HG & HC & HP & HR).
  destruct (drain_q pick PO opt iov_max (requests l) (GPof (requests l)) (GPlt' l) (GPmid' l) (GPpos' l) (LBA0' iov_max l L) (GPns' l) (reqs_NoDup l) (LEG' iov_max l L) O2
    (Z.to_nat (2 * Z.of_nat (npend s) + zlen (s_inflight s))) (requests l) (flat_map taken ev) s) as (s' & ev' & Ed & N0 & I0); auto.
  - pose proof (zlen_nonneg (s_inflight s)). lia.
  - exists []. now rewrite app_nil_r.
  - unfold quiet. destruct (s_delayed s); auto.
  - eexists _, s', ev'. split; [exact Ed|]. assert (W0 : waiting_ids s' = []).
    { unfold waiting_ids, npend in *. destruct (pending s'); [|cbn in N0; lia]. destruct (dl s'); [reflexivity|cbn in N0; lia]. }
    split; [exact W0|]. split; [exact I0|]. set (m := Z.to_nat (2 * Z.of_nat (npend s) + zlen (s_inflight s))) in *.
    destruct (run_ok pick PO opt iov_max (requests l) (GPof (requests l)) (GPlt' l) (GPmid' l) (GPpos' l) (LBA0' iov_max l L) (GPns' l) (reqs_NoDup l) (LEG' iov_max l L) (drain m) (requests l) (flat_map taken ev) s s' ev' [] HG HC) as (G2 & _ & P2 & R2); [rewrite drain_reqs; now rewrite !app_nil_r|exact Ed|].
    destruct (HR NR) as [T1 R1]. destruct (R2 R1) as [T2 _].
    { clear. induction m; cbn [drain]; [constructor|]. constructor; [exact I|]. constructor; [exact I|exact IHm]. }
    rewrite drain_reqs, app_nil_r in G2. destruct G2 as (gs & F & HI). pose proof (ids_groups _ _ _ F) as Eg. 
    destruct HI as ((pre & Es & P) & _). unfold waiting_ids in W0. rewrite flat_map_app in W0. apply app_eq_nil in W0. destruct W0 as [W1 W2].
    unfold answered_ids. rewrite I0 in P2. cbn [app] in P2. rewrite flat_map_app. rewrite !flat_map_app in Eg. rewrite W1, app_nil_r, T1, T2 in Eg.
    rewrite Permutation_app_comm. rewrite <- seq_ids. fold (requests l).
    assert (Pe : Permutation (flat_map issued ev ++ flat_map issued ev') (flat_map notified ev' ++ flat_map notified ev)).
    { rewrite HP. rewrite <- P2. rewrite <- !app_assoc. apply Permutation_app_head. apply Permutation_app_comm. }
    rewrite <- flat_map_app in Eg. rewrite (Permutation_flat_map o_senders Pe) in Eg || idtac.
    transitivity (flat_map o_senders (flat_map notified ev' ++ flat_map notified ev)).
    { rewrite !flat_map_app. reflexivity. }
    rewrite <- (Permutation_flat_map o_senders Pe). rewrite Eg. unfold pending in W2. rewrite !flat_map_app in W2. apply app_eq_nil in W2. destruct W2 as [W2 W3]. apply app_eq_nil in W3. destruct W3 as [W3 W4].
    rewrite Es. rewrite (flat_map_app o_senders pre), W4, app_nil_r. rewrite (Permutation_flat_map o_senders P). rewrite !flat_map_app, W2, W3, !app_nil_r. reflexivity.
Qed.

(** The scheduler does not panic, unless the device answers EAGAIN to a sync. *)
Theorem C10_only_sync_retry_panics pick opt iov_max l :
  pick_ok pick -> 2 <= opt < 2 ^ 32 -> legal iov_max l -> no_remove l -> run pick opt iov_max new_inner l = None ->
  exists l1 l2 s ev o, l = l1 ++ l2 /\ run pick opt iov_max new_inner l1 = Some (s, ev) /\ s_delayed s = Some o /\ is_sync o = true.
Proof.
  intros PO O2 L NR. destruct (new_Q opt ltac:(lia)) as [Q0 F0].
  assert (Gen : forall l2 l1 subs H s, Gs iov_max (requests l) (GPof (requests l)) subs H s -> s_count s = length subs -> (exists t, requests l = (subs ++ reqs (length subs) l2) ++ t) -> Q opt s -> Fin s -> no_remove l2 ->
    (exists ev, run pick opt iov_max new_inner l1 = Some (s, ev)) -> run pick opt iov_max s l2 = None ->
    exists l3 l4 s' ev o, l2 = l3 ++ l4 /\ run pick opt iov_max new_inner (l1 ++ l3) = Some (s', ev) /\ s_delayed s' = Some o /\ is_sync o = true).
  { induction l2 as [|i l2 IH]; intros l1 subs H s HG HC (t & Al) HQ HF N2 (ev & E1) EN; [discriminate|].
    assert (Quiet : quiet s \/ exists o, s_delayed s = Some o /\ is_sync o = true). { unfold quiet. destruct (s_delayed s) as [o|]; [|auto]. destruct (is_sync o) eqn:So; eauto. }
    destruct Quiet as [Hq|(o & D & So)].
    2:{ exists [], (i :: l2), s, ev, o. rewrite app_nil_r. auto. }
    rewrite reqs_app in Al. rewrite app_assoc in Al. rewrite <- app_length in Al. inversion N2 as [|? ? N3 N4]; subst.
    assert (Al1 : requests l = (subs ++ reqs (length subs) [i]) ++ reqs (length (subs ++ reqs (length subs) [i])) l2 ++ t) by (rewrite Al, <- !app_assoc; reflexivity).
    assert (NR1 : no_remove [i]) by (constructor; [exact N3|constructor]).
    cbn [run] in EN. destruct (step pick opt iov_max s i) as [[s1 e1]|] eqn:Es.
    - destruct (step_ok pick PO opt iov_max (requests l) (GPof (requests l)) (GPlt' l) (GPmid' l) (GPpos' l) (LBA0' iov_max l L) (GPns' l) (reqs_NoDup l) (LEG' iov_max l L) subs H s i s1 e1 _ HG HC Al1 Es) as (S1 & S2 & _).
      destruct (step_q pick PO opt iov_max (requests l) (GPof (requests l)) (GPlt' l) (GPmid' l) (GPpos' l) (LBA0' iov_max l L) (GPns' l) (reqs_NoDup l) (LEG' iov_max l L) O2 subs H s i s1 e1 HG HC (ex_intro _ _ Al1) HQ HF NR1 Es) as [Q1 F1].
      destruct (IH (l1 ++ [i]) _ _ s1 S1 S2) as (l3 & l4 & s' & ev' & o & -> & R & D & So); auto.
      + exists t. exact Al.
      + exists (ev ++ e1). clear - E1 Es. revert E1. generalize new_inner. revert ev. induction l1 as [|x l1 IHl]; intros ev s0 E1; cbn [run app] in *.
        * injection E1 as <- <-. rewrite Es. rewrite app_nil_r. reflexivity.
        * destruct (step pick opt iov_max s0 x) as [[sx ex]|]; [|discriminate]. destruct (run pick opt iov_max sx l1) as [[sy ey]|] eqn:Ey; [|discriminate]. injection E1 as -> <-. rewrite (IHl _ _ Ey). now rewrite app_assoc.
      + destruct (run pick opt iov_max s1 l2) as [[? ?]|]; [discriminate|reflexivity].
      + rewrite <- app_assoc in R. exists (i :: l3), l4, s', ev', o. auto.
    - exfalso. apply (step_total pick PO opt iov_max (requests l) (GPof (requests l)) (GPlt' l) (GPmid' l) (GPpos' l) (LBA0' iov_max l L) (GPns' l) (reqs_NoDup l) (LEG' iov_max l L) O2 subs H s i HG HC (ex_intro _ _ Al1) HQ Hq NR1 Es). }
  intros EN. destruct (Gen l [] [] [] new_inner (new_Gs iov_max _ _) eq_refl) as (l3 & l4 & s' & ev & o & -> & R & D & So); auto.
  - exists []. cbn [app length]. unfold requests. now rewrite app_nil_r.
  - exists []. reflexivity.
  - exists l3, l4, s', ev, o. auto.
Qed.

(** * C11 *)

(** Writes to one zone: if in an LBA range all requests come in increasing LBA order, they are issued in that order, whatever
    goes on elsewhere.  (The full claim, for any increasing batch, is false: [C11_elevator_refuted].) *)
Theorem C11_lba_order_partial pick opt iov_max l s ev a b x y :
  pick_ok pick -> legal iov_max l -> run pick opt iov_max new_inner l = Some (s, ev) ->
  (a < b)%nat -> nth_error (requests l) a = Some x -> nth_error (requests l) b = Some y -> is_sync x = false -> is_sync y = false ->
  o_lba x < o_lba y -> in_order (requests l) (o_lba x) (o_lba y) ->
  forall h1 h2, order ev = h1 ++ b :: h2 -> In a h1.
Proof.
  intros PO L E Lab Ea Eb Sx Sy Lt IO h1 h2 Eo. destruct (run_all pick PO opt iov_max l L s ev E) as ((gs & F & HI) & _).
  pose proof (ids_groups _ _ _ F) as Eg. rewrite flat_map_app in Eg. fold (order ev) in Eg. rewrite Eo, <- app_assoc in Eg. cbn [app] in Eg. symmetry in Eg.
  apply flat_split in Eg. 2:{ intros o Io. destruct (req_single l o (raw_in l gs s o HI Io)) as (k & Ek & _). eauto. }
  destruct Eg as (r1 & o & r2 & Er & E1 & E2). pose proof HI as (_ & _ & _ & _ & _ & _ & _ & GG & _).
  assert (Io : In o (requests l)) by (apply (raw_in l gs s o HI); rewrite Er, in_app_iff; right; left; reflexivity).
  destruct (req_single l o Io) as (k & Ek & En). rewrite E2 in Ek. injection Ek as <-. rewrite Eb in En. injection En as <-.
  assert (Gxy : GPof (requests l) x y) by (exists a, b; auto 10). destruct (GG x y Gxy) as [Pr _]. specialize (Pr _ _ Er). rewrite <- E1. apply in_flat_map. exists x. split; [exact Pr|].
  rewrite (reqs_nth _ _ _ _ Ea). left. reflexivity.
Qed.

(** * C12 *)

(** An operation given to the device stands for a run of requests of one kind; it moves exactly the blocks of their buffers, each
    to or from the LBA its request named; a request that is not merged is passed on as it is; the number of buffers stays legal. *)
Theorem C12_coalescing pick opt iov_max l s ev o :
  pick_ok pick -> legal iov_max l -> run pick opt iov_max new_inner l = Some (s, ev) -> In o (flat_map issued ev) ->
  exists rs, rs <> [] /\ Forall (fun r => In r (requests l) /\ class (o_cmd r) = class (o_cmd o)) rs /\
    o_senders o = flat_map o_senders rs /\ transfers o = flat_map transfers rs /\ (forall r, rs = [r] -> o = r) /\
    match iov_max with Some m => zlen (bufs (o_cmd o)) <= m | None => True end.
Proof.
  intros PO L E Io. destruct (run_all pick PO opt iov_max l L s ev E) as ((gs & F & HI) & _).
  assert (It : In o (flat_map taken ev)). { apply in_flat_map in Io. destruct Io as (e & Ie & Io). apply in_flat_map. exists e. split; [exact Ie|]. destruct e; try contradiction; exact Io. }
  assert (X : exists g, In g gs /\ merged iov_max g o).
  { clear - F It. remember (flat_map taken ev ++ dl s) as H0 eqn:EH. assert (I0 : In o H0) by (subst H0; rewrite in_app_iff; auto). clear EH It. induction F as [|g x gs H M F IH]; [contradiction|]. destruct I0 as [->|I0]; [exists g; split; [left; reflexivity|exact M]|].
    destruct (IH I0) as (g' & Ig & Mg). exists g'. split; [right; exact Ig|exact Mg]. }
  destruct X as (g & Ig & (M1 & M2 & M3 & M4 & M5 & M6 & M7)). exists g. split; [exact M1|]. split.
  - apply Forall_forall. intros r Ir. split; [|exact (proj1 (Forall_forall _ _) M5 _ Ir)]. apply (raw_in l gs s r HI). apply in_concat. eauto.
  - split; [exact M3|]. split; [exact M4|]. split; [exact M2|]. destruct iov_max; [apply M7|exact I].
Qed.

(** * C59 *)

(** While a removal is in progress nothing is issued to the device. *)
Theorem C59_nothing_issued_during_removal pick opt iov_max l s ev i s' ev' :
  pick_ok pick -> legal iov_max (l ++ [i]) -> run pick opt iov_max new_inner l = Some (s, ev) -> s_remover s = true ->
  step pick opt iov_max s i = Some (s', ev') -> issued_ids ev' = [].
Proof.
  intros PO L E R Es.
  assert (Al : requests (l ++ [i]) = requests l ++ reqs (length (requests l)) [i]).
  { unfold requests. clear. change (reqs 0 l ++ reqs (length (reqs 0 l)) [i]) with (reqs 0 l ++ reqs (0 + length (reqs 0 l)) [i]). generalize O as n. induction l as [|x l IH]; intros n; cbn [app]; [cbn [reqs app length]; now rewrite Nat.add_0_r|].
    destruct x; cbn [reqs app length]; rewrite IH; try reflexivity. rewrite Nat.add_succ_r. reflexivity. }
  set (A := requests (l ++ [i])) in *.
  destruct (run_ok pick PO opt iov_max A (GPof A) (GPlt' (l ++ [i])) (GPmid' (l ++ [i])) (GPpos' (l ++ [i])) (LBA0' iov_max _ L) (GPns' _) (reqs_NoDup _) (LEG' iov_max _ L) l [] [] new_inner s ev (reqs (length (requests l)) [i]) (new_Gs iov_max _ _) eq_refl Al E) as (G1 & C1 & _).
  cbn [app length] in *. fold (requests l) in *. unfold issued_ids. destruct i as [lba c ans|k|ans|ans]; cbn [step reqs] in *.
  - rewrite C1 in Es. set (o := Op lba c [length (requests l)]) in *.
    assert (HG1 : Gs iov_max A (GPof A) (requests l ++ [o]) (flat_map taken ev) (set_count (sched s o) (S (length (requests l))))).
    { destruct G1 as (gs & F & HI). exists gs. split.
      - replace (dl (set_count (sched s o) (S (length (requests l))))) with (dl s); [exact F|]. unfold dl, sched. destruct (is_sync o || s_syncing s); [|destruct (s_last s <=? o_lba o)]; reflexivity.
      - pose proof (sched_Inv A (GPof A) (GPlt' _) (GPmid' _) (GPpos' _) (LBA0' iov_max _ L) (GPns' _) (reqs_NoDup _) (requests l) (concat gs) s o [] HI) as I1. apply I1. rewrite app_nil_r. exact Al. }
    apply (issue_all_ok pick PO opt iov_max A (GPof A) (GPlt' _) (GPmid' _) (GPpos' _) (LBA0' iov_max _ L) (GPns' _) (reqs_NoDup _) (LEG' iov_max _ L) _ _ _ _ _ _ HG1) in Es.
    destruct Es as (_ & _ & _ & X & _). rewrite X; [reflexivity|]. unfold sched. destruct (is_sync o || s_syncing s); [|destruct (s_last s <=? o_lba o)]; exact R.
  - destruct (nth_error (s_inflight s) k); injection Es as <- <-; reflexivity.
  - destruct (s_timers s) as [|tm]; [injection Es as <- <-; reflexivity|].
    assert (HG1 : Gs iov_max A (GPof A) (requests l) (flat_map taken ev) (set_timers s tm)) by (destruct G1 as (gs & F & HI); exists gs; split; [exact F|exact HI]).
    apply (issue_all_ok pick PO opt iov_max A (GPof A) (GPlt' _) (GPmid' _) (GPpos' _) (LBA0' iov_max _ L) (GPns' _) (reqs_NoDup _) (LEG' iov_max _ L) _ _ _ _ _ _ HG1) in Es.
    destruct Es as (_ & _ & _ & X & _). rewrite X; [reflexivity|exact R].
  - rewrite R in Es. discriminate.
Qed.

(** * Cases *)

(** a heap that yields the first of its minimal elements *)
Definition oleb (a b : op) : bool := (o_lba a <? o_lba b) || ((o_lba a =? o_lba b) && (discriminant (o_cmd a) <=? discriminant (o_cmd b))).
Fixpoint first_min (h : list op) : nat :=
  match h with
  | [] => O
  | o :: r => match nth_error r (first_min r) with
              | Some m => if oleb o m then O else S (first_min r)
              | None => O
              end
  end.
Lemma oleb_spec a b : oleb a b = true <-> ole a b.
Proof. unfold oleb, ole. rewrite Bool.orb_true_iff, Bool.andb_true_iff, Z.ltb_lt, Z.eqb_eq, Z.leb_le. reflexivity. Qed.
Lemma first_min_ok : pick_ok first_min.
Proof.
  intros h. induction h as [|o r IH]; intros NE; [now elim NE|]. cbn [first_min]. destruct r as [|x r].
  - exists o. cbn. split; [reflexivity|]. constructor; [right; lia|constructor].
  - destruct IH as (m & Em & Fm); [discriminate|]. rewrite Em. destruct (oleb o m) eqn:E.
    + apply oleb_spec in E. exists o. split; [reflexivity|]. constructor; [right; lia|]. eapply Forall_impl; [|exact Fm]. intros y. unfold ole in *. lia.
    + exists m. split; [exact Em|]. constructor; [|exact Fm]. assert (~ ole o m) by (rewrite <- oleb_spec; congruence). unfold ole in *. lia.
Qed.

Definition wr (lba id n : Z) : input := Submit lba (WriteAt (Buf id (n * 4096))) [].
Definition rd (lba id n : Z) : input := Submit lba (ReadAt (Buf id (n * 4096))) [].
Definition go (opt : Z) (l : list input) := run first_min opt (Some 16) new_inner l.
Definition ids_of (r : option (inner * list event)) := match r with Some (s, ev) => Some (order ev, waiting_ids s, flat_map o_senders (s_inflight s), answered_ids ev) | None => None end.
Definition legalb (l : list input) : bool :=
  forallb (fun o => (0 <=? o_lba o) && forallb (fun b => (0 <=? b_len b) && (b_len b mod LBA =? 0)) (bufs (o_cmd o)) && (zlen (bufs (o_cmd o)) <=? 16)) (requests l).
Lemma legalb_ok l : legalb l = true -> legal (Some 16) l.
Proof.
  unfold legalb, legal. rewrite forallb_forall, Forall_forall. intros H o Io. specialize (H o Io). rewrite !Bool.andb_true_iff, !Z.leb_le in H. destruct H as [[H1 H2] H3].
  split; [exact H1|]. split; [|lia]. apply Forall_forall. intros b Ib. rewrite forallb_forall in H2. specialize (H2 b Ib). rewrite Bool.andb_true_iff, Z.leb_le, Z.eqb_eq in H2. exact H2.
Qed.
Ltac legal_tac := apply legalb_ok; vm_compute; reflexivity.

(** Two operations in flight; a write, a sync and another write queue up behind them. *)
Definition l_sync : list input := [wr 5 0 1; wr 9 1 2; wr 20 2 1; Submit 0 SyncAll []; wr 12 4 1; wr 21 5 1; Finish 0; Wake []; Finish 0; Wake []; Finish 0; Wake []; Finish 0; Wake []].
Example C09_case : legal (Some 16) l_sync /\ ids_of (go 2 l_sync) = Some ([0; 1; 2; 3; 5; 4]%nat, [], [5; 4]%nat, [0; 1; 2; 3]%nat).
Proof. split; [legal_tac|vm_compute; reflexivity]. Qed.

(** The device is out of resources for a while: requests wait, one of them delayed; then everything drains. *)
Definition l_busy : list input := [Submit 5 (WriteAt (Buf 0 4096)) [Pending]; Submit 9 (WriteAt (Buf 1 4096)) [Eagain]; wr 7 2 1; wr 8 3 1; Submit 0 SyncAll []].
Example C10_case : legal (Some 16) l_busy /\ no_remove l_busy /\ ids_of (go 10 l_busy) = Some ([0; 1; 2; 3; 4]%nat, [], [0; 1; 2; 3; 4]%nat, []).
Proof. split; [legal_tac|]. split; [repeat constructor|vm_compute; reflexivity]. Qed.
Definition l_busy2 : list input := [wr 5 0 1; Submit 9 (WriteAt (Buf 1 4096)) [Eagain]; Submit 7 (WriteAt (Buf 2 4096)) [Eagain]; Submit 8 (WriteAt (Buf 3 4096)) [Eagain]; Submit 0 SyncAll [Eagain]].
Example C10_case_waiting : legal (Some 16) l_busy2 /\ no_remove l_busy2 /\ ids_of (go 10 l_busy2) = Some ([0]%nat, [1; 2; 3; 4]%nat, [0]%nat, []) /\
  match go 10 l_busy2 with Some (s, _) => match s_delayed s with Some o => is_sync o | None => true end | None => true end = false.
Proof. split; [legal_tac|]. split; [repeat constructor|]. split; vm_compute; reflexivity. Qed.

(** An EAGAIN for a sync makes the retry poll a finished future: the process panics with a request unanswered. *)
Theorem C10_sync_eagain_refuted : exists pick l, pick_ok pick /\ legal (Some 16) l /\ no_remove l /\ run pick 10 (Some 16) new_inner l = None.
Proof. exists first_min, [Submit 0 SyncAll [Eagain]; Wake []]. split; [exact first_min_ok|]. split; [legal_tac|]. split; [repeat constructor|vm_compute; reflexivity]. Qed.

Example C11_case : let l := [rd 50 0 1; rd 60 1 1; wr 3 2 1; rd 70 3 1; wr 7 4 1; wr 9 5 1; Finish 0; Wake []; Finish 0; Wake []; Finish 0; Wake []; Finish 0; Wake []] in
  legal (Some 16) l /\ ids_of (go 2 l) = Some ([0; 1; 3; 2; 4; 5]%nat, [], [4; 5]%nat, [0; 1; 3; 2]%nat).
Proof. split; [legal_tac|vm_compute; reflexivity]. Qed.
Example C11_case_order : in_order (requests [rd 50 0 1; rd 60 1 1; wr 3 2 1; rd 70 3 1; wr 7 4 1; wr 9 5 1]) 3 9.
Proof.
  intros a b x y Lt Ea Eb _ _. cbn in Ea, Eb.
  destruct a as [|[|[|[|[|[|a]]]]]]; destruct b as [|[|[|[|[|[|b]]]]]]; cbn in Ea, Eb; try lia; try (destruct a; discriminate); try (destruct b; discriminate);
    injection Ea as <-; injection Eb as <-; cbn; lia.
Qed.

(** The comment at vdev_block.rs:430-431 promises that writes scheduled in LBA order are issued in LBA order.  With the
    elevator at LBA 5, a write to 3 followed by one to 7 goes out as 7, 3. *)
Theorem C11_elevator_refuted : exists pick l s ev a b x y, pick_ok pick /\ legal (Some 16) l /\ run pick 10 (Some 16) new_inner l = Some (s, ev) /\
  (a < b)%nat /\ nth_error (requests l) a = Some x /\ nth_error (requests l) b = Some y /\ class (o_cmd x) = 4 /\ class (o_cmd y) = 4 /\ o_lba x < o_lba y /\
  (forall c z, nth_error (requests l) c = Some z -> class (o_cmd z) = 4 -> c = a \/ c = b) /\
  exists h1 h2, order ev = h1 ++ b :: a :: h2.
Proof.
  pose (l := map (fun i => rd 5 i 1) [0; 1; 2; 3; 4; 5; 6; 7; 8; 9] ++ [wr 3 10 1; wr 7 11 1; Finish 0; Finish 0; Wake []]).
  assert (LG : legal (Some 16) l) by (unfold l; legal_tac). exists first_min, l. destruct (run first_min 10 (Some 16) new_inner l) as [[s ev]|] eqn:E; [|vm_compute in E; discriminate].
  exists s, ev, 10%nat, 11%nat, (Op 3 (WriteAt (Buf 10 4096)) [10%nat]), (Op 7 (WriteAt (Buf 11 4096)) [11%nat]).
  split; [exact first_min_ok|]. split; [exact LG|]. split; [reflexivity|]. split; [lia|]. split; [reflexivity|]. split; [reflexivity|]. split; [reflexivity|]. split; [reflexivity|]. split; [cbn; lia|]. split.
  - intros c z Ec Cz. unfold l in Ec. do 12 (destruct c as [|c]; [first [right; reflexivity|left; reflexivity|cbn in Ec; injection Ec as <-; discriminate Cz]|]). destruct c; discriminate.
  - exists (seq 0 10), []. assert (X : match run first_min 10 (Some 16) new_inner l with Some (_, e) => order e | None => [] end = seq 0 10 ++ [11%nat; 10%nat]) by (vm_compute; reflexivity). rewrite E in X. exact X.
Qed.

(** Four adjacent writes queue behind a busy disk and go out as one. *)
Definition l_merge : list input := [rd 5 0 1; rd 90 1 1; wr 13 2 1; wr 10 3 1; Submit 11 (WritevAt [Buf 4 4096; Buf 5 4096]) []; wr 14 6 3; Finish 0; Wake []].
Example C12_case : legal (Some 16) l_merge /\ exists s ev, go 2 l_merge = Some (s, ev) /\
  In (Op 10 (WritevAt [Buf 3 4096; Buf 4 4096; Buf 5 4096; Buf 2 4096; Buf 6 12288]) [3; 4; 2; 5]%nat) (flat_map issued ev).
Proof.
  split; [legal_tac|]. destruct (go 2 l_merge) as [[s ev]|] eqn:E; [|vm_compute in E; discriminate]. exists s, ev. split; [reflexivity|].
  assert (X : match go 2 l_merge with Some (_, e) => nth_error (flat_map issued e) 2 | None => None end = Some (Op 10 (WritevAt [Buf 3 4096; Buf 4 4096; Buf 5 4096; Buf 2 4096; Buf 6 12288]) [3; 4; 2; 5]%nat)) by (vm_compute; reflexivity).
  rewrite E in X. eapply nth_error_In; exact X.
Qed.

(** Removing a disk while requests wait: they are cancelled, and the remover is told when the last operation is done. *)
Definition l_rm : list input := [rd 5 0 1; rd 9 1 1; wr 20 2 1; wr 30 3 1; Remove []; Finish 0; Wake []; Finish 0; Wake []].
Example C59_case : legal (Some 16) l_rm /\ ids_of (go 2 l_rm) = Some ([0; 1; 2; 3]%nat, [], [], [0; 1]%nat) /\
  match go 2 l_rm with Some (_, ev) => last ev (Notified (Op 0 SyncAll [])) | None => Notified (Op 0 SyncAll []) end = Removed.
Proof. split; [legal_tac|]. split; vm_compute; reflexivity. Qed.
Example C59_case_during : exists s ev s' ev', go 2 [rd 5 0 1; rd 9 1 1; wr 20 2 1; wr 30 3 1; Remove []; Finish 0] = Some (s, ev) /\ s_remover s = true /\ step first_min 2 (Some 16) s (Wake []) = Some (s', ev') /\ ev' <> [].
Proof.
  destruct (go 2 [rd 5 0 1; rd 9 1 1; wr 20 2 1; wr 30 3 1; Remove []; Finish 0]) as [[s ev]|] eqn:E; [|vm_compute in E; discriminate].
  vm_compute in E. injection E as <- <-. eexists _, _, _, _. split; [reflexivity|]. split; [reflexivity|]. split; [vm_compute; reflexivity|discriminate].
Qed.

(** Requests that were merged and then cancelled are subtracted from the queue depth once each, though they were added once
    together.  So the remover can be told that the disk is idle while an operation is still in flight ... *)
Definition busy10 : list input := map (fun i => rd (100 * i) i 1) [1; 2; 3; 4; 5; 6; 7; 8; 9; 10].
Theorem C59_removed_too_early_refuted : exists pick l s ev, pick_ok pick /\ legal (Some 16) l /\ run pick 10 (Some 16) new_inner l = Some (s, ev) /\ In Removed ev /\ s_inflight s <> [].
Proof.
  pose (l := busy10 ++ [wr 5 10 1; wr 6 11 1; Remove []] ++ flat_map (fun _ => [Finish 0; Wake []]) (seq 0 9)).
  assert (LG : legal (Some 16) l) by (unfold l; legal_tac). exists first_min, l. destruct (run first_min 10 (Some 16) new_inner l) as [[s ev]|] eqn:E; [|vm_compute in E; discriminate].
  exists s, ev. split; [exact first_min_ok|]. split; [exact LG|]. split; [reflexivity|].
  assert (X : match run first_min 10 (Some 16) new_inner l with Some (s, e) => (nth_error e (length e - 1), length (s_inflight s)) | None => (None, O) end = (Some Removed, 1%nat)) by (vm_compute; reflexivity).
  rewrite E in X. injection X as X1 X2. split; [eapply nth_error_In; exact X1|]. intros Z0. rewrite Z0 in X2. discriminate.
Qed.
(** ... or never be told, with requests left unanswered, though nothing is in flight and no wake-up is due. *)
Theorem C59_remove_hangs_refuted : exists pick l s ev, pick_ok pick /\ legal (Some 16) l /\ run pick 10 (Some 16) new_inner l = Some (s, ev) /\
  s_remover s = true /\ s_inflight s = [] /\ s_timers s = O /\ ~ In Removed ev /\ waiting_ids s <> [].
Proof.
  pose (l := busy10 ++ map (fun i => wr (5 + i) (10 + i) 1) [0; 1; 2; 3; 4; 5; 6; 7; 8; 9; 10; 11] ++ [wr 50 30 1; Remove []] ++ flat_map (fun _ => [Finish 0; Wake []]) (seq 0 10)).
  assert (LG : legal (Some 16) l) by (unfold l; legal_tac). exists first_min, l. destruct (run first_min 10 (Some 16) new_inner l) as [[s ev]|] eqn:E; [|vm_compute in E; discriminate].
  exists s, ev. split; [exact first_min_ok|]. split; [exact LG|]. split; [reflexivity|].
  assert (X : match run first_min 10 (Some 16) new_inner l with
              | Some (s, e) => (s_remover s, s_inflight s, s_timers s, forallb (fun x => match x with Removed => false | _ => true end) e, waiting_ids s) | None => (false, [], O, false, []) end
            = (true, [], O, true, [22%nat])) by (vm_compute; reflexivity).
  rewrite E in X. injection X as X1 X2 X3 X4 X5. repeat (split; [assumption|]). split.
  - intros I0. rewrite forallb_forall in X4. now specialize (X4 _ I0).
  - rewrite X5. discriminate.
Qed.

Print Assumptions C09_sync_is_a_barrier.
Print Assumptions C10_exactly_once.
Print Assumptions C10_answered_once.
Print Assumptions C10_no_lost_wakeup.
Print Assumptions C10_no_starvation.
Print Assumptions C10_only_sync_retry_panics.
Print Assumptions C10_sync_eagain_refuted.
Print Assumptions C11_lba_order_partial.
Print Assumptions C11_elevator_refuted.
Print Assumptions C12_coalescing.
Print Assumptions C59_nothing_issued_during_removal.
Print Assumptions C59_removed_too_early_refuted.
Print Assumptions C59_remove_hangs_refuted.
