(** C111: one daemon for one socket. *)
From Coq Require Import List Arith Bool Lia.
From Verif Require Import Lock_Model.
Import ListNotations.

(** * Specification *)

Definition serving (s : state) (p : pid) : Prop := exists i, phases s p = Serving i.
Definition waiting (s : state) (p : pid) : Prop := exists i, phases s p = Waiting i.
Definition actor (e : event) : pid := match e with Open p | Lock p | Clear p | Bind p | Unsock p | Unlock p | Exit p => p end.

(** executions of the processes [ps] *)
Inductive exec (ps : list pid) : state -> list event -> state -> Prop :=
| exec_nil s : exec ps s [] s
| exec_cons s e s1 r s2 : In (actor e) ps -> step ps s e = Some s1 -> exec ps s1 r s2 -> exec ps s (e :: r) s2.

(** The program as it is: [Bfffsd::run] (main.rs 496-501) never returns, so that a daemon only ends by being killed, by
    [exit] or by a panic, and its socket's drop, which does nothing in a panic, never removes anything. *)
Definition as_is (es : list event) : Prop := forall p, ~ In (Unsock p) es /\ ~ In (Unlock p) es.

(** no daemon removes the lock file while another waits for it *)
Inductive polite (ps : list pid) : state -> list event -> Prop :=
| pol_nil s : polite ps s []
| pol_cons s e r : (forall p, e = Unlock p -> forall q, ~ waiting s q) -> (forall s1, step ps s e = Some s1 -> polite ps s1 r) -> polite ps s (e :: r).

(** * Invariant *)

(** the file a process is concerned with while it may still do something to the names *)
Definition concerned (x : phase) : option inode :=
  match x with Waiting i | Locked i | Cleared i | Serving i | Closing i => Some i | _ => None end.
Definition owns (x : phase) : option inode := match x with Locked i | Cleared i | Serving i | Closing i => Some i | _ => None end.

Record inv (ps : list pid) (s : state) : Prop := {
  i_in : forall p, phases s p <> Idle -> In p ps;
  i_file : forall p i, concerned (phases s p) = Some i -> lockfile s = Some i;
  i_one : forall p q i j, owns (phases s p) = Some i -> owns (phases s q) = Some j -> p = q;
  i_sock : forall p i, phases s p = Serving i -> sock s = Some p;
  i_clear : forall p i, phases s p = Cleared i -> sock s = None }.

Lemma inv_init ps : inv ps init.
Proof. split; cbn; intros; try discriminate; congruence. Qed.

Lemma upd_eq f p x : upd f p x p = x.
Proof. unfold upd. now rewrite Nat.eqb_refl. Qed.
Lemma upd_ne f p x q : q <> p -> upd f p x q = f q.
Proof. intros N. unfold upd. destruct (Nat.eqb_spec q p); congruence. Qed.
Lemma upd_cases f p x q : (q = p /\ upd f p x q = x) \/ (q <> p /\ upd f p x q = f q).
Proof. destruct (Nat.eq_dec q p) as [->|N]; [left; split; [reflexivity|apply upd_eq]|right; split; [exact N|now apply upd_ne]]. Qed.

Lemma owns_holds x i : owns x = Some i -> holds x = Some i /\ concerned x = Some i.
Proof. destruct x; cbn; try discriminate; auto. Qed.
Lemma free_spec s ps i q j : free s ps i = true -> In q ps -> holds (phases s q) = Some j -> j <> i.
Proof. unfold free. rewrite forallb_forall. intros F I H. specialize (F q I). rewrite H in F. destruct (Nat.eqb_spec j i); [discriminate|assumption]. Qed.

Lemma inv_upd ps s p x l k n : inv ps s -> In p ps ->
  (forall i, concerned x = Some i -> l = Some i) ->
  (forall q i, q <> p -> concerned (phases s q) = Some i -> l = Some i) ->
  (owns x <> None -> forall q j, q <> p -> owns (phases s q) <> Some j) ->
  (forall i, x = Serving i -> k = Some p) -> (forall i, x = Cleared i -> k = None) ->
  (forall q i, q <> p -> phases s q = Serving i -> k = Some q) -> (forall q i, q <> p -> phases s q = Cleared i -> k = None) ->
  inv ps (St (upd (phases s) p x) l k n).
Proof.
  intros [A F O K C] I H1 H2 H3 H4 H5 H6 H7. split; cbn [phases lockfile sock].
  - intros q. destruct (upd_cases (phases s) p x q) as [[-> U]|[N U]]; rewrite U; [intros _; exact I|apply A].
  - intros q i. destruct (upd_cases (phases s) p x q) as [[-> U]|[N U]]; rewrite U; [apply H1|now apply H2].
  - intros q r i j. destruct (upd_cases (phases s) p x q) as [[-> U]|[N U]]; rewrite U; destruct (upd_cases (phases s) p x r) as [[-> V]|[M V]]; rewrite V.
    + reflexivity.
    + intros X Y. refine (False_ind _ (H3 _ r j M Y)). rewrite X. discriminate.
    + intros X Y. refine (False_ind _ (H3 _ q i N X)). rewrite Y. discriminate.
    + apply O.
  - intros q i. destruct (upd_cases (phases s) p x q) as [[-> U]|[N U]]; rewrite U; [apply H4|now apply H6].
  - intros q i. destruct (upd_cases (phases s) p x q) as [[-> U]|[N U]]; rewrite U; [apply H5|now apply H7].
Qed.

(** a process that has the lock has it alone *)
Lemma alone ps s p i : inv ps s -> owns (phases s p) = Some i -> lockfile s = Some i /\
  (forall q j, q <> p -> owns (phases s q) <> Some j) /\ (forall q j, q <> p -> phases s q <> Serving j) /\ (forall q j, q <> p -> phases s q <> Cleared j).
Proof.
  intros [A F O K C] H. split; [apply (F p), owns_holds, H|].
  assert (X : forall q j, q <> p -> owns (phases s q) <> Some j) by (intros q j N Y; apply N; exact (O q p j i Y H)).
  split; [exact X|]. split; intros q j N Y; apply (X q j N); rewrite Y; reflexivity.
Qed.

Ltac base := try assumption; try (intros; discriminate); try (intros; reflexivity);
  try (let Z := fresh in intros ? Z; injection Z as <-; (assumption || reflexivity)); try (let Z := fresh in intros Z; destruct (Z eq_refl)).

Lemma inv_step ps s e s' : inv ps s -> In (actor e) ps -> (forall p, e = Unlock p -> forall q, ~ waiting s q) -> step ps s e = Some s' -> inv ps s'.
Proof.
  intros V I W E. pose proof V as [A F O K C]. destruct e as [p|p|p|p|p|p|p]; cbn [step actor] in *.
  - destruct (phases s p) eqn:P; try discriminate. destruct (lockfile s) as [i|] eqn:L; injection E as <-; apply inv_upd; cbn [concerned owns];
      base; try (intros; eapply K; eassumption); try (intros; eapply C; eassumption).
    + intros q j N X. exact (F _ _ X).
    + intros q j N X. apply F in X. discriminate X.
  - destruct (phases s p) as [|i| | | | | |] eqn:P; try discriminate. destruct (free s ps i) eqn:Q; [|discriminate]. injection E as <-.
    assert (Lp : lockfile s = Some i) by (apply (F p); rewrite P; reflexivity).
    apply inv_upd; cbn [concerned owns]; base; try (intros; eapply K; eassumption); try (intros; eapply C; eassumption).
    + intros q j N X. exact (F _ _ X).
    + intros _ q j N H. destruct (owns_holds _ _ H) as [H1 H2]. assert (Iq : In q ps) by (apply A; intros Z; rewrite Z in H; discriminate).
      apply F in H2. apply (free_spec _ _ _ _ _ Q Iq H1). rewrite Lp in H2. injection H2 as <-. reflexivity.
  - destruct (phases s p) as [| |i| | | | |] eqn:P; try discriminate. injection E as <-.
    destruct (alone ps s p i V ltac:(rewrite P; reflexivity)) as (L & X1 & X2 & X3).
    apply inv_upd; cbn [concerned owns]; base.
    + intros q j N X. exact (F _ _ X).
    + intros _. exact X1.
    + intros q j N X. destruct (X2 q j N X).
  - destruct (phases s p) as [| | |i| | | |] eqn:P; try discriminate. rewrite (C _ _ P) in E. injection E as <-.
    destruct (alone ps s p i V ltac:(rewrite P; reflexivity)) as (L & X1 & X2 & X3).
    apply inv_upd; cbn [concerned owns]; base.
    + intros q j N X. exact (F _ _ X).
    + intros _. exact X1.
    + intros q j N X. destruct (X2 q j N X).
    + intros q j N X. destruct (X3 q j N X).
  - destruct (phases s p) as [| | | |i| | |] eqn:P; try discriminate. injection E as <-.
    destruct (alone ps s p i V ltac:(rewrite P; reflexivity)) as (L & X1 & X2 & X3).
    apply inv_upd; cbn [concerned owns]; base.
    + intros q j N X. exact (F _ _ X).
    + intros _. exact X1.
    + intros q j N X. destruct (X2 q j N X).
  - destruct (phases s p) as [| | | | |i| |] eqn:P; try discriminate. injection E as <-.
    destruct (alone ps s p i V ltac:(rewrite P; reflexivity)) as (L & X1 & X2 & X3).
    apply inv_upd; cbn [concerned owns]; base.
    + intros q j N X. exfalso. destruct (phases s q) eqn:Q; cbn [concerned] in X; try discriminate X; try (eapply (X1 q); [exact N|rewrite Q; reflexivity]).
      apply (W p eq_refl q). eexists; exact Q.
    + intros q j N X. destruct (X2 q j N X).
    + intros q j N X. destruct (X3 q j N X).
  - assert (Y : s' = St (upd (phases s) p Dead) (lockfile s) (sock s) (next s)) by (destruct (phases s p); try discriminate E; injection E as <-; reflexivity). subst s'. clear E.
    apply inv_upd; cbn [concerned owns]; base.
    + intros q j N X. exact (F _ _ X).
    + intros q j N X. exact (K _ _ X).
    + intros q j N X. exact (C _ _ X).
Qed.

Lemma exec_inv ps s es s' : exec ps s es s' -> inv ps s -> polite ps s es -> inv ps s'.
Proof.
  induction 1 as [s|s e s1 r s2 I E X IH]; intros V P; [exact V|]. inversion P as [|? ? ? W N]; subst. apply IH; [|auto]. eapply inv_step; eauto.
Qed.

(** At most one daemon serves at a time and clients that open the socket reach it, even were daemons to end in an orderly
    way, if none does so while another waits. *)
Theorem C111_orderly_partial ps es s : exec ps init es s -> polite ps init es ->
  (forall p q, serving s p -> serving s q -> p = q) /\ (forall p, serving s p -> sock s = Some p).
Proof.
  intros X P. destruct (exec_inv _ _ _ _ X (inv_init ps) P) as [A F O K C]. split.
  - intros p q (i & Hp) (j & Hq). apply (O p q i j); [rewrite Hp|rewrite Hq]; reflexivity.
  - intros p (i & H). eauto.
Qed.

Lemma as_is_polite ps es s : as_is es -> polite ps s es.
Proof.
  revert s. induction es as [|e es IH]; intros t N; constructor.
  - intros p ->. exfalso. apply (proj2 (N p)). now left.
  - intros s1 _. apply IH. intros p. split; intros I; [apply (proj1 (N p))|apply (proj2 (N p))]; now right.
Qed.

(** Of the program as it is: at most one daemon serves at a time, and clients that open the socket reach it, whatever
    crashes there have been. *)
Theorem C111_one ps es s : exec ps init es s -> as_is es ->
  (forall p q, serving s p -> serving s q -> p = q) /\ (forall p, serving s p -> sock s = Some p).
Proof. intros X N. apply (C111_orderly_partial ps es s X). now apply as_is_polite. Qed.

Lemma stays ps s es s' : exec ps s es s' -> as_is es -> lockfile s <> None \/ (exists p, In (Open p) es) -> lockfile s' <> None.
Proof.
  induction 1 as [s|s e s1 r s2 I E X IH]; intros N H.
  - destruct H as [H|(p & [])]. exact H.
  - apply IH.
    + intros p. split; intros J; [apply (proj1 (N p))|apply (proj2 (N p))]; now right.
    + assert (Y : lockfile s <> None -> lockfile s1 <> None).
      { intros L. destruct e as [p|p|p|p|p|p|p]; cbn [step] in E; destruct (phases s p); try discriminate E.
        - destruct (lockfile s); injection E as <-; cbn; discriminate.
        - destruct (free _ _ _); [|discriminate E]. injection E as <-. exact L.
        - injection E as <-. exact L.
        - destruct (sock s); injection E as <-; exact L.
        - injection E as <-. exact L.
        - destruct (proj2 (N p)). now left.
        - injection E as <-. exact L.
        - injection E as <-. exact L.
        - injection E as <-. exact L.
        - injection E as <-. exact L.
        - injection E as <-. exact L.
        - injection E as <-. exact L. }
      destruct H as [H|(p & [->|H])]; [left; auto| |right; eauto]. left. cbn [step] in E. destruct (phases s p); try discriminate E.
      destruct (lockfile s); injection E as <-; cbn; discriminate.
Qed.
(** The lock file is never removed: once a daemon has been started there is one, whether or not any daemon is left. *)
Theorem C111_left_refuted ps es s p : exec ps init es s -> as_is es -> In (Open p) es -> lockfile s <> None.
Proof. intros X N I. eapply stays; eauto. Qed.

(** In whatever state the files were left, if no process holds a lock a daemon that is started comes to serve. *)
Theorem C111_restart ps s p : In p ps -> phases s p = Idle ->
  (forall q, holds (phases s q) = None) ->
  exists s', exec ps s [Open p; Lock p; Clear p; Bind p] s' /\ serving s' p /\ sock s' = Some p.
Proof.
  intros I P N.
  assert (X : forall f i l k n, (forall q, holds (f q) = None) -> exists s', exec ps (St (upd f p (Waiting i)) l k n) [Lock p; Clear p; Bind p] s' /\ serving s' p /\ sock s' = Some p).
  { intros f i l k n H. eexists. split; [|split].
    - econstructor; [exact I| |].
      + cbn [step phases]. rewrite upd_eq.
        replace (free _ ps i) with true; [reflexivity|]. symmetry. apply forallb_forall. intros q _. cbn [phases].
        destruct (upd_cases f p (Waiting i) q) as [[_ U]|[_ U]]; rewrite U; [reflexivity|now rewrite H].
      + econstructor; [exact I| |].
        * cbn [step phases lockfile sock next]. rewrite upd_eq. reflexivity.
        * econstructor; [exact I| |constructor]. cbn [step phases lockfile sock next]. rewrite upd_eq. reflexivity.
    - exists i. cbn [phases]. apply upd_eq.
    - reflexivity. }
  destruct (lockfile s) as [i|] eqn:L.
  - destruct (X (phases s) i (Some i) (sock s) (next s) N) as (s' & E & R). exists s'. split; [|exact R].
    econstructor; [exact I| |exact E]. cbn [step]. rewrite P, L. reflexivity.
  - destruct (X (phases s) (next s) (Some (next s)) (sock s) (S (next s)) N) as (s' & E & R). exists s'. split; [|exact R].
    econstructor; [exact I| |exact E]. cbn [step]. rewrite P, L. reflexivity.
Qed.

Definition start p := [Open p; Lock p; Clear p; Bind p].
Definition stop p := [Unsock p; Unlock p; Exit p].

Lemma run_exec ps es : forall s s', run ps s es = Some s' -> forallb (fun e => existsb (Nat.eqb (actor e)) ps) es = true -> exec ps s es s'.
Proof.
  induction es as [|e es IH]; intros s s' R B; cbn [run] in R; [injection R as <-; constructor|].
  cbn [forallb] in B. apply andb_true_iff in B. destruct B as [B1 B2]. destruct (step ps s e) as [s1|] eqn:E; [|discriminate].
  econstructor; [|exact E|auto]. apply existsb_exists in B1. destruct B1 as (x & I & Q). apply Nat.eqb_eq in Q. now rewrite Q.
Qed.

(** where a list of events leads *)
Definition after (ps : list pid) (es : list event) : state := match run ps init es with Some s => s | None => init end.
Lemma after_exec ps es : (match run ps init es with Some _ => true | None => false end) = true ->
  forallb (fun e => existsb (Nat.eqb (actor e)) ps) es = true -> exec ps init es (after ps es).
Proof. unfold after. destruct (run ps init es) as [s|] eqn:R; [|discriminate]. intros _. now apply run_exec. Qed.

(** The code for an orderly end, were it reached: the first daemon ends while a second waits; the second and a third then serve together. *)
Definition clash : list event := start 0 ++ [Open 1] ++ stop 0 ++ [Lock 1; Clear 1; Bind 1] ++ start 2.
Theorem C111_two_refuted : exists ps es s, exec ps init es s /\ serving s 1 /\ serving s 2 /\ sock s = Some 2.
Proof.
  exists [0; 1; 2], clash, (after [0; 1; 2] clash). split; [apply after_exec; vm_compute; reflexivity|].
  split; [exists 0; vm_compute; reflexivity|]. split; [exists 1; vm_compute; reflexivity|]. vm_compute; reflexivity.
Qed.

(** When the second ends, it removes the socket of the third, which serves on without any client being able to reach it. *)
Theorem C111_unreachable_refuted : exists ps es s, exec ps init es s /\ serving s 2 /\ sock s = None /\ lockfile s = None.
Proof.
  exists [0; 1; 2], (clash ++ stop 1), (after [0; 1; 2] (clash ++ stop 1)). split; [apply after_exec; vm_compute; reflexivity|].
  split; [exists 1; vm_compute; reflexivity|]. split; vm_compute; reflexivity.
Qed.

Lemma step_other ps s e s1 q : step ps s e = Some s1 -> q <> actor e -> phases s1 q = phases s q.
Proof.
  intros E N. destruct e as [p|p|p|p|p|p|p]; cbn [step actor] in *; destruct (phases s p); try discriminate E;
    try destruct (lockfile s); try destruct (free _ _ _); try destruct (sock s); try discriminate E; injection E as <-; cbn [phases]; now apply upd_ne.
Qed.
Fixpoint politeb (ps : list pid) (s : state) (es : list event) : bool :=
  match es with
  | [] => true
  | e :: r => (match e with Unlock _ => forallb (fun q => match phases s q with Waiting _ => false | _ => true end) ps | _ => true end) &&
              match step ps s e with Some s1 => politeb ps s1 r | None => true end
  end.
Lemma politeb_ok ps es : forall s, (forall q, ~ In q ps -> phases s q = Idle) -> forallb (fun e => existsb (Nat.eqb (actor e)) ps) es = true ->
  politeb ps s es = true -> polite ps s es.
Proof.
  induction es as [|e es IH]; intros s A B P; [constructor|]. cbn [forallb politeb] in *. apply andb_true_iff in B, P. destruct B as [B1 B2], P as [P1 P2].
  apply existsb_exists in B1. destruct B1 as (x & I & Q). apply Nat.eqb_eq in Q. subst x. constructor.
  - intros p -> q (i & W). rewrite forallb_forall in P1. destruct (in_dec Nat.eq_dec q ps) as [J|J]; [|rewrite (A q J) in W; discriminate].
    specialize (P1 q J). rewrite W in P1. discriminate.
  - intros s1 E. rewrite E in P2. apply IH; auto. intros q J. rewrite (step_other _ _ _ _ q E); [now apply A|]. intros ->. exact (J I).
Qed.

(** a daemon that ends in an orderly way, one that crashes, and one that serves, the last having waited *)
Example C111_ex : let es := start 0 ++ stop 0 ++ start 1 ++ [Open 2; Exit 1; Lock 2; Clear 2; Bind 2] in
  exec [0; 1; 2] init es (after [0; 1; 2] es) /\ polite [0; 1; 2] init es /\ serving (after [0; 1; 2] es) 2.
Proof.
  cbv zeta. split; [apply after_exec; vm_compute; reflexivity|]. split; [|exists 1; vm_compute; reflexivity].
  apply politeb_ok; [reflexivity|vm_compute; reflexivity|vm_compute; reflexivity].
Qed.

(** the program as it is: crashes at several moments, then a daemon that serves *)
Example C111_ex_as_is : let es := start 0 ++ [Open 1; Open 2; Exit 0; Lock 2; Exit 2; Lock 1; Clear 1; Bind 1] in
  exec [0; 1; 2] init es (after [0; 1; 2] es) /\ as_is es /\ serving (after [0; 1; 2] es) 1.
Proof.
  cbv zeta. split; [apply after_exec; vm_compute; reflexivity|]. split; [|exists 0; vm_compute; reflexivity].
  intros p. split; intros I; cbn in I; repeat (destruct I as [I|I]; [discriminate I|]); destruct I.
Qed.

Print Assumptions C111_orderly_partial.
Print Assumptions C111_one.
Print Assumptions C111_left_refuted.
Print Assumptions C111_restart.
Print Assumptions C111_two_refuted.
Print Assumptions C111_unreachable_refuted.
