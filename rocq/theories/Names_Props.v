(** Link counts (C38), files that are open without a name (C39), link (C40), inode numbers (C41), the directory loop check (C48)
    and the effect of every operation on names (C60). *)
From Verif Require Import Common HTable_Model HTable_Props Names_Model Names_Dir Names_Proofs Names_Ops Names_Ops2 Names_Spec.
From Coq Require Import Permutation.

Section Props.
Context (hash : name -> Z) (dhash : Z -> Z).
Notation Inv := (Inv hash dhash).
Notation lookup := (lookup hash).
Notation legal := (legal hash).
Notation lucky := (lucky hash dhash).
Notation run_where := (run_where hash dhash).
Notation legal_run := (legal_run hash dhash).
Notation run := (run hash dhash).
Notation step := (step hash dhash).
Notation new_fs := (new_fs hash).
Notation names_of := (names_of hash).
Notation subdirs_of := (subdirs_of hash).
Notation Did := (Did hash dhash).

(** ** Tools *)
Lemma lookup_dir s d n i : Inv s -> lookup s d n = Some i -> directory s d.
Proof.
  intros [V _] E. apply lookup_some in E. destruct E as (b & E). apply N_iff in E; [|exact (iv_wf _ _ _ _ _ V d)]. apply directory_isdir. exact (ents_isdir _ _ _ _ _ _ _ V E).
Qed.
Lemma two_names s i : Inv s -> 2 <= refs s i -> forall d0 n0, exists d n, ordinary n /\ lookup s d n = Some i /\ (d, n) <> (d0, n0).
Proof.
  intros I R d0 n0. destruct (names_list hash dhash s I i) as (L & [ND HL] & Len). destruct L as [|[d1 n1] [|[d2 n2] L]]; cbn [length] in Len; try lia.
  inversion ND as [|? ? H1 _]; subst. destruct (proj1 (HL d1 n1) (or_introl eq_refl)) as [O1 E1]. destruct (proj1 (HL d2 n2) (or_intror (or_introl eq_refl))) as [O2 E2].
  destruct (Z.eq_dec d1 d0) as [->|]; [|exists d1, n1; repeat split; [apply O1|apply O1|exact E1|congruence]]. destruct (name_eqb n1 n0) eqn:Eb.
  - apply name_eqb_spec in Eb. subst n1. exists d2, n2. repeat split; [apply O2|apply O2|exact E2|]. intros X. apply H1. left. congruence.
  - exists d0, n1. repeat split; [apply O1|apply O1|exact E1|]. intros X. injection X as X. apply name_eqb_spec in X. congruence.
Qed.
Lemma one_name s i : Inv s -> 1 <= refs s i -> exists d n, ordinary n /\ lookup s d n = Some i.
Proof.
  intros I R. destruct (names_list hash dhash s I i) as (L & [ND HL] & Len). destruct L as [|[d n] L]; cbn [length] in Len; [lia|]. exists d, n. apply HL. now left.
Qed.
Lemma no_name s i : Inv s -> refs s i = 0 -> forall d n, ordinary n -> lookup s d n <> Some i.
Proof.
  intros I R d n O E. destruct (names_list hash dhash s I i) as (L & [ND HL] & Len). destruct L as [|x L]; cbn [length] in Len; [|lia]. apply (proj2 (HL d n)). auto.
Qed.
Lemma plain_refs s i k : Inv s -> getattr s i = Some (false, k) -> k = refs s i.
Proof. intros [V _] G. unfold getattr in G. destruct (inodes s i) as [v|] eqn:Ev; [|discriminate]. injection G as Dv <-. pose proof (iv_file _ _ _ _ _ V i v Ev Dv) as F. cbn beta in F. lia. Qed.
Lemma same_spec d n d' n' : reflect (d = d' /\ n = n') (same d n d' n').
Proof. rewrite same_hit. apply hit_spec. Qed.
Lemma kind_plain_dir s i : kind s i = Some false -> directory s i -> False.
Proof. intros K D. apply directory_isdir, isdir_kind in D. congruence. Qed.
Lemma dead_plain s i : dead s i = true -> kind s i = Some false.
Proof. intros D. apply plain_kind. exists 0. now apply nameless_dead. Qed.

Definition reachable (s : fs) : Prop := exists l rs, legal_run new_fs l /\ run new_fs l = Some (rs, s).
Lemma reachable_inv s : hash DOT <> hash DOTDOT -> reachable s -> Inv s.
Proof.
  intros Hh (l & rs & L & R). destruct (run_inv hash dhash l new_fs (new_fs_inv hash dhash Hh) L) as (rs' & s' & E & I). rewrite R in E. injection E as _ <-. exact I.
Qed.

(** ** C38 *)
(** No legal sequence of operations panics, and afterwards every file has as many links as names, every directory but the root
    has exactly one name and two links more than subdirectories, "." and ".." lead where they should, and every name leads to
    an object.  The root has one link less than other directories. *)
Theorem C38_link_counts_partial : hash DOT <> hash DOTDOT -> forall l, legal_run new_fs l -> exists rs s, run new_fs l = Some (rs, s) /\
  (forall i k, getattr s i = Some (false, k) -> exists L, names_of s i L /\ k = Z.of_nat (length L)) /\
  (forall i k, getattr s i = Some (true, k) -> i <> 1 ->
     lookup s i DOT = Some i /\ (exists p n, names_of s i [(p, n)] /\ lookup s i DOTDOT = Some p) /\ exists L, subdirs_of s i L /\ k = 2 + Z.of_nat (length L)) /\
  (exists k L, getattr s 1 = Some (true, k) /\ names_of s 1 [] /\ subdirs_of s 1 L /\ k = 1 + Z.of_nat (length L)) /\
  (forall d n i, lookup s d n = Some i -> ordinary n -> getattr s i <> None).
Proof.
  intros Hh l L. destruct (run_inv hash dhash l new_fs (new_fs_inv hash dhash Hh) L) as (rs & s & E & I). exists rs, s. split; [exact E|]. exact (counts hash dhash s I).
Qed.

(** ** C60 *)
(** Every operation changes exactly the names it should, and gives the result it should. *)
Theorem C60_names_exact_partial : hash DOT <> hash DOTDOT -> forall s o, reachable s -> legal s o -> lucky s o ->
  exists r s', step s o = Some (r, s') /\ outcome hash s o r /\ forall d m, lookup s' d m = expected hash s o r d m.
Proof.
  intros Hh s o R L K. destruct (legal_step hash dhash s o (reachable_inv s Hh R) L K) as (r & s' & E & D). exists r, s'. split; [exact E|]. split; [exact (did_out _ _ _ _ _ _ D Hh)|exact (did_names _ _ _ _ _ _ D)].
Qed.

(** ** C40 *)
(** A new link that collides with no name of the directory adds its name and leaves every other name and object alone. *)
Theorem C40_link_partial : hash DOT <> hash DOTDOT -> forall s p i n, reachable s -> legal s (Link p i n) -> (forall m j, lookup s p m = Some j -> hash m <> hash n) ->
  exists s', step s (Link p i n) = Some (ROk i, s') /\ lookup s' p n = Some i /\ (forall d m, (d, m) <> (p, n) -> lookup s' d m = lookup s d m) /\
    (forall j, (getattr s' j = None <-> getattr s j = None) /\ (directory s' j <-> directory s j)).
Proof.
  intros Hh s p i n R L NC. destruct (legal_step hash dhash s (Link p i n) (reachable_inv s Hh R) L NC) as (r & s' & E & D). pose proof (did_out _ _ _ _ _ _ D Hh) as O. destruct r as [j|e]; [|contradiction]. cbn [outcome] in O. subst j. exists s'. split; [exact E|]. pose proof (did_names _ _ _ _ _ _ D) as HN. cbn [expected] in HN. pose proof (did_kind _ _ _ _ _ _ D) as K. cbn beta iota in K. split; [|split].
  - rewrite HN. destruct (same_spec p n p n); tauto.
  - intros d m Hd. rewrite HN. destruct (same_spec d m p n) as [[-> ->]|]; [contradiction|reflexivity].
  - intros j. specialize (K j). split; [|rewrite !directory_isdir, !isdir_kind, K; reflexivity]. unfold getattr, kind in *. destruct (inodes s' j), (inodes s j); cbn in K; split; congruence.
Qed.

(** ** C41 *)
Definition creates (o : op) : bool := match o with Create _ _ | Mkdir _ _ => true | _ => false end.
Definition is_mount (o : op) : bool := match o with Mount _ => true | _ => false end.
Lemma run_next l : forall s, Inv s -> legal_run s l -> forallb (fun o => negb (is_mount o)) l = true -> forall rs s', run s l = Some (rs, s') -> nexto s <= nexto s'.
Proof.
  induction l as [|o l IH]; intros s I L M rs s' R; cbn [Names_Model.run] in R; [injection R as <- <-; lia|]. destruct L as [[L1 L2] L3]. cbn [forallb] in M. apply andb_true_iff in M. destruct M as [M1 M2]. destruct (legal_step hash dhash s o I L1 L2) as (r & s1 & E & D). rewrite E in *. destruct (run s1 l) as [[rs1 s2]|] eqn:R1; [|discriminate]. injection R as _ <-. pose proof (IH s1 (did_inv _ _ _ _ _ _ D) L3 M2 _ _ R1) as H. pose proof (did_next _ _ _ _ _ _ D) as Nx. destruct o; cbn [is_mount negb] in M1; try discriminate; lia.
Qed.
(** A new object's number is that of no object that existed at any time since the file system was mounted. *)
Theorem C41_not_reused_within_mount : hash DOT <> hash DOTDOT -> forall s l o rs s1 i s2, reachable s -> legal_run s (l ++ [o]) ->
  forallb (fun o => negb (is_mount o)) l = true -> run s l = Some (rs, s1) -> creates o = true -> step s1 o = Some (ROk i, s2) ->
  getattr s i = None /\ getattr s1 i = None /\ (forall d n, lookup s d n <> Some i \/ ~ ordinary n) /\ exists k, getattr s2 i = Some (match o with Mkdir _ _ => true | _ => false end, k).
Proof.
  intros Hh s l o rs s1 i s2 Rc L M R C E. pose proof (reachable_inv s Hh Rc) as I.
  assert (Sp : forall l s, legal_run s (l ++ [o]) -> legal_run s l /\ forall rs s1, run s l = Some (rs, s1) -> legal s1 o /\ lucky s1 o).
  { clear. induction l as [|x l IH]; intros s L; cbn [app] in L.
    - split; [exact Logic.I|]. intros rs s1 E. injection E as _ <-. exact (proj1 L).
    - destruct L as [L1 L2]. unfold Names_Spec.legal_run in *. cbn [Names_Spec.run_where Names_Model.run]. destruct (step s x) as [[r s1]|]; [|split; [auto|discriminate]]. destruct (IH s1 L2) as [A B]. split; [split; assumption|]. intros rs s2 E. destruct (run s1 l) as [[rs1 s3]|] eqn:R1; [|discriminate]. injection E as _ <-. exact (B _ _ eq_refl). }
  destruct (Sp l s L) as [L1 L2]. destruct (L2 _ _ R) as [Lo Lk]. destruct (run_inv hash dhash l s I L1) as (rs' & s1' & R' & I1). rewrite R in R'. injection R' as _ <-. pose proof (run_next l s I L1 M _ _ R) as Nx. destruct (legal_step hash dhash s1 o I1 Lo Lk) as (r & s2' & E' & D). rewrite E in E'. injection E' as <- <-.
  assert (Hi : i = nexto s1) by (pose proof (did_next _ _ _ _ _ _ D) as X; destruct o; try discriminate; destruct X as [X _]; now injection X).
  assert (Ge : forall t, Inv t -> nexto t <= i -> getattr t i = None). { intros t [Vt _] Ht. unfold getattr. destruct (inodes t i) as [v|] eqn:Ev; [|reflexivity]. pose proof (iv_rng _ _ _ _ _ Vt i v Ev). lia. }
  split; [apply Ge; [exact I|lia]|]. split; [apply Ge; [exact I1|lia]|]. split.
  - intros d n. destruct (proper n) eqn:P; [left|right; now apply not_ordinary]. intros X. apply ordinary_proper in P. apply (proj2 (proj2 (proj2 (counts hash dhash s I))) d n i X P). apply Ge; [exact I|lia].
  - pose proof (did_kind _ _ _ _ _ _ D i) as K. assert (Kk : kind s2 i = Some (match o with Mkdir _ _ => true | _ => false end)) by (destruct o; try discriminate; rewrite Z.eqb_refl in K; exact K). destruct (kind_some _ _ _ Kk) as (v & Ev & Dv). exists (i_nlink v). unfold getattr. now rewrite Ev, Dv.
Qed.

(** ** C39 *)
(** The kernel keeps track of the files that are open: a file is open when it has been created or found by name, until it is
    reported inactive or the file system is unmounted.  Directories are left out. *)
Inductive ev := Do (o : op) | Look (i : Z).
Definition opens (O : Z -> bool) (o : op) (r : result) : Z -> bool :=
  match o, r with
  | Create _ _, ROk i => upd O i true
  | Inactive i, _ => upd O i false
  | Mount _, _ => fun _ => false
  | _, _ => O
  end.
Fixpoint erun (s : fs) (O : Z -> bool) (l : list ev) : option (fs * (Z -> bool)) :=
  match l with
  | [] => Some (s, O)
  | Do o :: r => match step s o with Some (x, s1) => erun s1 (opens O o x) r | None => None end
  | Look i :: r => erun s (upd O i true) r
  end.
(** unlink is told whether the file is open *)
Definition honest (s : fs) (O : Z -> bool) (o : op) : Prop :=
  match o with Unlink p n a => forall i, lookup s p n = Some i -> a = O i | _ => True end.
(** what must not happen for the code to work: the last name of an open file is replaced by rename *)
Definition lucky39 (s : fs) (O : Z -> bool) (o : op) : Prop :=
  match o with
  | Rename p fd n np newino nn => (p, n) <> (np, nn) -> forall v, newino = Some v -> getattr s v = Some (false, 1) -> O v = false
  | _ => True
  end.
Fixpoint ewhere (P : fs -> (Z -> bool) -> op -> Prop) (s : fs) (O : Z -> bool) (l : list ev) : Prop :=
  match l with
  | [] => True
  | Do o :: r => P s O o /\ match step s o with Some (x, s1) => ewhere P s1 (opens O o x) r | None => True end
  | Look i :: r => (exists k, getattr s i = Some (false, k) /\ 0 < k) /\ ewhere P s (upd O i true) r
  end.

Definition Open39 (s : fs) (O : Z -> bool) : Prop := (forall i, O i = true -> kind s i = Some false) /\ (forall i, dead s i = true -> O i = true).

Lemma step39 s O o r s' : hash DOT <> hash DOTDOT -> Inv s -> Open39 s O -> legal s o -> honest s O o -> lucky39 s O o -> Did s o r s' -> Open39 s' (opens O o r).
Proof.
  intros Hh I [A B] L H K D. pose proof (did_inv _ _ _ _ _ _ D) as I'. pose proof (did_kind _ _ _ _ _ _ D) as Kd. pose proof (did_names _ _ _ _ _ _ D) as HN. pose proof (did_out _ _ _ _ _ _ D Hh) as Ho.
  assert (Rp : forall p fd n np newino nn v b', o = Rename p fd n np newino nn -> replaced hash s p n np nn = Some (v, b') -> (p, n) <> (np, nn) /\ newino = Some v /\ kind s v = Some b').
  { intros p fd n np newino nn v b' -> E. unfold replaced in E. destruct (hit_spec p n np nn) as [X|X]; [discriminate|]. split; [intros Y; apply X; injection Y; auto|]. cbn [Names_Spec.legal] in L. destruct L as (_ & _ & On & _ & El & _). split; [rewrite <- El; apply lookup_some; eauto|]. exact (N_kind hash dhash s np nn v b' I E On). }
  split.
  - (* open files exist *)
    intros i Oi. assert (Old : O i = true -> kind s' i = Some false \/ (exists e, o = Mount e) \/ o = Inactive i).
    { intros X. specialize (A i X). rewrite Kd. destruct r as [j|e]; [|destruct o; auto]. destruct o as [p n|p n|p k n|p n a|p n|p fd n np newino nn|k|e]; auto.
      - destruct (Z.eqb_spec i j) as [->|]; auto.
      - destruct (Z.eqb_spec i j) as [->|]; auto. cbn [outcome] in Ho. unfold getattr in Ho. unfold kind in A. destruct (inodes s j); discriminate.
      - destruct (Z.eqb_spec i j) as [->|]; cbn [andb]; auto. cbn [outcome] in Ho. rewrite (H j Ho), X, andb_false_r. auto.
      - destruct (Z.eqb_spec i j) as [->|]; auto. exfalso. cbn [outcome] in Ho. cbn [Names_Spec.legal] in L. destruct L as (_ & _ & L). exact (kind_plain_dir s j A (L j (proj1 Ho))).
      - destruct (replaced hash s p n np nn) as [[v b']|] eqn:Er; auto. destruct (Rp _ _ _ _ _ _ v b' eq_refl Er) as (N1 & N2 & N3). destruct (Z.eqb_spec i v) as [->|]; cbn [andb]; auto. assert (b' = false) by congruence. subst b'. cbn [orb]. destruct (Z.eqb_spec (refs s v) 1) as [R1|]; auto. exfalso. destruct (proj2 (plain_kind s v) A) as (k & G). pose proof (plain_refs s v k I G). assert (E1 : k = 1) by lia. rewrite E1 in G. specialize (K N1 v N2 G). congruence.
      - destruct (Z.eqb_spec i k) as [->|]; auto.
      - right. left. eauto. }
    unfold opens in Oi. destruct o as [p n|p n|p k n|p n a|p n|p fd n np newino nn|k|e]; try (destruct (Old Oi) as [X|[[e X]|X]]; [exact X|discriminate|discriminate]).
    + destruct r as [j|e]; [|destruct (Old Oi) as [X|[[e' X]|X]]; [exact X|discriminate|discriminate]]. unfold upd in Oi. destruct (Z.eqb_spec i j) as [Eij|Eij]; [rewrite Kd, Eij, Z.eqb_refl; reflexivity|]. destruct (Old Oi) as [X|[[e X]|X]]; [exact X|discriminate|discriminate].
    + unfold upd in Oi. destruct (Z.eqb_spec i k) as [Eij|Eij]; [discriminate|]. destruct (Old Oi) as [X|[[e X]|X]]; [exact X|discriminate|congruence].
    + discriminate.
  - (* files without names are open *)
    intros i Di. pose proof (dead_plain s' i Di) as Ki. destruct (dead_facts hash dhash s' i I' Di) as (_ & R0 & _). pose proof (no_name s' i I' R0) as NN.
    destruct (kind s i) as [bi|] eqn:Ks.
    2:{ exfalso. rewrite Kd in Ki. destruct r as [j|e]; [|destruct o; congruence]. destruct o as [p n|p n|p k n|p n a|p n|p fd n np newino nn|k|e]; try congruence.
        - destruct (Z.eqb_spec i j) as [->|]; [|congruence]. cbn [Names_Spec.legal] in L. destruct L as (_ & On & _). apply (NN p n On). rewrite HN. cbn [expected]. destruct (same_spec p n p n); tauto.
        - destruct (i =? j); [discriminate|congruence].
        - destruct ((i =? j) && ((refs s j =? 1) && negb a)); congruence.
        - destruct (i =? j); congruence.
        - destruct (replaced hash s p n np nn) as [[v b']|]; [|congruence]. destruct ((i =? v) && (b' || (refs s v =? 1))); congruence.
        - destruct ((i =? k) && dead s k); congruence.
        - destruct (dead s i); congruence. }
    assert (bi = false). { destruct bi; [|reflexivity]. exfalso. rewrite Kd in Ki. destruct r as [j|e]; [|destruct o; congruence]. destruct o as [p n|p n|p k n|p n a|p n|p fd n np newino nn|k|e]; try congruence.
        - destruct (Z.eqb_spec i j) as [->|]; [|congruence]. cbn [outcome] in Ho. unfold getattr in Ho. unfold kind in Ks. destruct (inodes s j); discriminate.
        - destruct (i =? j); congruence.
        - destruct ((i =? j) && ((refs s j =? 1) && negb a)); congruence.
        - destruct (i =? j); congruence.
        - destruct (replaced hash s p n np nn) as [[v b']|]; [|congruence]. destruct ((i =? v) && (b' || (refs s v =? 1))); congruence.
        - destruct ((i =? k) && dead s k); congruence.
        - destruct (dead s i); congruence. } subst bi.
    destruct (dead s i) eqn:Ds.
    { specialize (B i Ds). unfold opens. destruct o as [p n|p n|p k n|p n a|p n|p fd n np newino nn|k|e]; auto.
      - destruct r; [|exact B]. unfold upd. destruct (i =? ino); auto.
      - unfold upd. destruct (Z.eqb_spec i k) as [->|]; [|exact B]. exfalso. rewrite Kd in Ki. destruct r; [rewrite Z.eqb_refl, Ds in Ki; discriminate|]. destruct Ho.
      - exfalso. rewrite Kd in Ki. destruct r; [rewrite Ds in Ki; discriminate|]. destruct Ho. }
    assert (R1 : 1 <= refs s i). { destruct (proj2 (plain_kind s i) Ks) as (k & G). pose proof (plain_refs s i k I G). pose proof (refs_nonneg s i). destruct (Z.eq_dec (refs s i) 0) as [E0|]; [|lia]. exfalso. assert (X : dead s i = true) by (apply nameless_dead; rewrite G; do 2 f_equal; lia). congruence. }
    destruct (one_name s i I R1) as (d & m & Om & El). pose proof (NN d m Om) as Lost. rewrite HN in Lost. destruct r as [j|e]; [|rewrite expected_err in Lost; contradiction].
    destruct o as [p n|p n|p k n|p n a|p n|p fd n np newino nn|k|e]; cbn [expected Names_Spec.legal outcome] in *.
    + exfalso. destruct (same_spec d m p n) as [[-> ->]|]; [|contradiction]. destruct L as (_ & _ & L). congruence.
    + exfalso. destruct (same_spec d m p n) as [[-> ->]|]; [destruct L as (_ & _ & L); congruence|]. destruct (Z.eqb_spec d j) as [->|]; [|contradiction]. destruct (lookup_dir s j m i I El) as (k & G). congruence.
    + exfalso. destruct (same_spec d m p n) as [[-> ->]|]; [|contradiction]. destruct L as (_ & _ & _ & L). congruence.
    + destruct (same_spec d m p n) as [[-> ->]|]; [|contradiction]. assert (i = j) by congruence. subst j. cbn [opens]. rewrite Kd, Z.eqb_refl in Ki. cbn [andb] in Ki. destruct (Z.eqb_spec (refs s i) 1) as [E1|E1].
      * cbn [andb] in Ki. rewrite <- (H i El). destruct a; [reflexivity|discriminate].
      * exfalso. destruct (two_names s i I ltac:(lia) p n) as (d2 & m2 & O2 & El2 & Ne). apply (NN d2 m2 O2). rewrite HN. cbn [expected]. destruct (same_spec d2 m2 p n) as [[-> ->]|]; [congruence|exact El2].
    + exfalso. destruct (Z.eqb_spec d j) as [->|]; cbn [orb] in Lost.
      * destruct Ho as [_ Ho]. destruct (Ho m i El) as [X|X]; [now apply (proj1 Om)|now apply (proj2 Om)].
      * destruct (same_spec d m p n) as [[-> ->]|]; [|contradiction]. destruct L as (_ & _ & L). exact (kind_plain_dir s i Ks (L i El)).
    + exfalso. destruct L as (_ & _ & On & Elf & Eln & Hk). destruct Ho as (-> & Onn & Hem). cbn zeta in Lost.
      assert (Gone : forall x, match newino with Some v => (match getattr s v with Some (b, _) => b | None => false end) && negb (same p n np nn) && (x =? v) | None => false end = true -> forall y w, lookup s x y = Some w -> y = DOT \/ y = DOTDOT).
      { intros x Hx y w Ey. destruct newino as [v|]; [|discriminate]. apply andb_true_iff in Hx. destruct Hx as [Hx Hv]. apply andb_true_iff in Hx. destruct Hx as [Hx _]. apply Z.eqb_eq in Hv. subst x. apply (Hem v y w eq_refl); [|exact Ey]. unfold directory. destruct (getattr s v) as [[b k]|]; [subst b; eauto|discriminate]. }
      assert (Not_gone : forall x y w, ordinary y -> lookup s x y = Some w -> match newino with Some v => (match getattr s v with Some (b, _) => b | None => false end) && negb (same p n np nn) && (x =? v) | None => false end = false).
      { intros x y w Oy Ey. apply not_true_iff_false. intros X. destruct (Gone x X y w Ey) as [Z|Z]; [now apply (proj1 Oy)|now apply (proj2 Oy)]. }
      rewrite (Not_gone d m i Om El) in Lost.
      assert (Fd : i <> fd). { intros ->. apply (NN np nn On). rewrite HN. cbn [expected]. cbn zeta. assert (G : match newino with Some v => (match getattr s v with Some (b, _) => b | None => false end) && negb (same p n np nn) && (np =? v) | None => false end = false). { destruct newino as [v|]; [|reflexivity]. exact (Not_gone np nn v On Eln). } rewrite G. destruct (same_spec np nn np nn); tauto. }
      destruct (same_spec d m np nn) as [[-> ->]|].
      * assert (Env : newino = Some i) by congruence. assert (Hs : hit p n np nn = false). { destruct (hit_spec p n np nn) as [[E1 E2]|]; [|reflexivity]. subst np nn. congruence. }
        apply lookup_some in El. destruct El as (b & El). pose proof (N_kind hash dhash s np nn i b I El On) as Kb. assert (b = false) by congruence. subst b.
        rewrite Kd in Ki. unfold replaced in Ki. rewrite Hs, El, Z.eqb_refl in Ki. cbn [andb orb] in Ki. destruct (Z.eqb_spec (refs s i) 1) as [|E1]; [discriminate|].
        destruct (two_names s i I ltac:(lia) np nn) as (d2 & m2 & O2 & El2 & Ne). apply (NN d2 m2 O2). rewrite HN. cbn [expected]. cbn zeta. rewrite (Not_gone d2 m2 i O2 El2). destruct (same_spec d2 m2 np nn) as [[-> ->]|]; [contradiction|]. destruct (same_spec d2 m2 fd DOTDOT) as [[_ X]|]; [now destruct (proj2 O2)|]. rewrite andb_false_r. destruct (same_spec d2 m2 p n) as [[-> ->]|]; [congruence|exact El2].
      * destruct (same_spec d m fd DOTDOT) as [[_ X]|]; [now destruct (proj2 Om)|]. rewrite andb_false_r in Lost. destruct (same_spec d m p n) as [[-> ->]|]; [congruence|contradiction].
    + contradiction.
    + contradiction.
Qed.

(** No legal history panics.  A file that is open exists, and a file without a name exists only while it is open. *)
Theorem C39_open_unlinked_partial : hash DOT <> hash DOTDOT -> forall l,
  ewhere (fun s O o => legal s o /\ lucky s o /\ honest s O o /\ lucky39 s O o) new_fs (fun _ => false) l ->
  exists s O, erun new_fs (fun _ => false) l = Some (s, O) /\
    (forall i, O i = true -> plain s i) /\ (forall i, getattr s i = Some (false, 0) -> O i = true).
Proof.
  intros Hh l L. assert (G : forall l s O, Inv s -> Open39 s O -> ewhere (fun s O o => legal s o /\ lucky s o /\ honest s O o /\ lucky39 s O o) s O l ->
    exists s' O', erun s O l = Some (s', O') /\ Inv s' /\ Open39 s' O').
  { clear l L. induction l as [|[o|i] l IH]; intros s O I H L; cbn [erun ewhere] in *; [eauto|destruct L as [(L1 & L2 & L3 & L4) L5]|destruct L as [(k & G & Hk) L]].
    - destruct (legal_step hash dhash s o I L1 L2) as (r & s1 & E & D). rewrite E in *. apply IH; [exact (did_inv _ _ _ _ _ _ D)|exact (step39 s O o r s1 Hh I H L1 L3 L4 D)|exact L5].
    - apply IH; [exact I| |exact L]. destruct H as [A B]. split; unfold upd.
      + intros j. destruct (Z.eqb_spec j i) as [->|]; [intros _; apply plain_kind; exists k; exact G|apply A].
      + intros j Dj. destruct (Z.eqb_spec j i) as [->|]; [reflexivity|exact (B j Dj)]. }
  destruct (G l new_fs (fun _ => false) (new_fs_inv hash dhash Hh)) as (s & O & E & I & A & B); [|exact L|].
  - split; [discriminate|]. intros i D. exfalso. apply dead_spec in D. destruct D as (v & Ev & Dv & _). unfold new_fs in Ev. cbn in Ev. unfold upd in Ev. destruct (i =? 1); [injection Ev as <-; discriminate|discriminate].
  - exists s, O. split; [exact E|]. split; [intros i Oi; apply plain_kind; auto|]. intros i G0. apply B. now apply nameless_dead.
Qed.
(** After a mount no file is without a name. *)
Theorem C39_mount_reaps : hash DOT <> hash DOTDOT -> forall s e, reachable s ->
  exists s', step s (Mount e) = Some (ROk 0, s') /\ (forall i, getattr s' i <> Some (false, 0)) /\ (forall d n, lookup s' d n = lookup s d n) /\
    forall i k, getattr s i = Some (false, k) -> 0 < k -> plain s' i.
Proof.
  intros Hh s e R. pose proof (reachable_inv s Hh R) as I. destruct (mount_ok hash dhash s e I) as (I' & _ & HN & K & Dd). eexists. split; [reflexivity|]. split; [|split].
  - intros i G. apply nameless_dead in G. rewrite Dd in G. discriminate.
  - intros d n. apply lookup_same, HN.
  - intros i k G Hk. apply plain_kind. rewrite K. destruct (dead s i) eqn:Di; [apply nameless_dead in Di; rewrite Di in G; injection G as <-; lia|]. apply plain_kind. exists k. exact G.
Qed.

(** ** C48 *)
(** [a] lies above the directory [d], and [d] is part of the tree *)
Inductive above (s : fs) : Z -> Z -> Prop :=
  | above_one d p : directory s d -> d <> 1 -> lookup s d DOTDOT = Some p -> above s d p
  | above_more d p a : directory s d -> d <> 1 -> lookup s d DOTDOT = Some p -> above s p a -> above s d a.
Definition in_tree (s : fs) (d : Z) : Prop := d = 1 \/ above s d 1.

(** What FuseFs has cached about a file: [parent] of Fs::lookup, fs.rs:1474-1501, Fs::ilookup 1379-1400 and reparent 372. *)
Definition cache (s : fs) (i : Z) : option (option Z) :=
  match getattr s i with Some (true, _) => Some (if i =? 1 then None else lookup s i DOTDOT) | Some (false, _) => Some None | None => None end.

Lemma parent s d : Inv s -> directory s d -> d <> 1 -> exists p n, ordinary n /\ lookup s p n = Some d /\ lookup s d DOTDOT = Some p /\ directory s p.
Proof.
  intros I (k & G) H1. destruct (counts hash dhash s I) as (_ & C & _). destruct (C d k G H1) as (_ & (p & n & [_ HL] & Ed) & _). exists p, n. destruct (proj1 (HL p n) (or_introl eq_refl)) as [On El]. repeat split; [apply On|apply On|exact El|exact Ed|]. exact (lookup_dir s p n d I El).
Qed.
Lemma above_dir s d a : Inv s -> above s d a -> directory s a.
Proof. intros I A. induction A as [d p D H1 E|d p a D H1 E _ IH]; [|exact IH]. destruct (parent s d I D H1) as (q & n & _ & _ & E' & Dq). congruence. Qed.
Lemma cache_dir s d : directory s d -> d <> 1 -> cache s d = Some (lookup s d DOTDOT).
Proof. intros (k & G) H. unfold cache. rewrite G. destruct (Z.eqb_spec d 1); [contradiction|reflexivity]. Qed.
Lemma cache_root s : Inv s -> cache s 1 = Some None.
Proof. intros I. destruct (counts hash dhash s I) as (_ & _ & (k & L & G & _) & _). unfold cache. now rewrite G. Qed.
Lemma root_not_above s a : Inv s -> ~ above s 1 a.
Proof. intros I A. inversion A; contradiction. Qed.
Lemma dirloop_spec s files src : Inv s -> forall d, in_tree s d -> (forall a, a = d \/ above s d a -> files a = cache s a) ->
  exists fuel v, dirloop files fuel src d = Some v /\ (v = Refuse <-> above s d src).
Proof.
  intros I d T. assert (Root : (forall a, a = 1 \/ above s 1 a -> files a = cache s a) -> exists fuel v, dirloop files fuel src 1 = Some v /\ (v = Refuse <-> above s 1 src)).
  { intros Hf. exists 1%nat, Accept. cbn [dirloop]. rewrite (Hf 1 (or_introl eq_refl)), (cache_root s I). split; [reflexivity|]. split; [discriminate|]. intros A. destruct (root_not_above s src I A). }
  assert (Step : forall d p, directory s d -> d <> 1 -> lookup s d DOTDOT = Some p -> (forall a, a = d \/ above s d a -> files a = cache s a) ->
    ((forall a, a = p \/ above s p a -> files a = cache s a) -> exists fuel v, dirloop files fuel src p = Some v /\ (v = Refuse <-> above s p src)) ->
    exists fuel v, dirloop files fuel src d = Some v /\ (v = Refuse <-> above s d src)).
  { clear d T Root. intros d p D H1 E Hf IH. destruct IH as (fuel & v & Ev & Hv). { intros a [->|A]; apply Hf; right; [now apply above_one with (1 := D)|now apply above_more with (p := p)]. }
    exists (S fuel). cbn [dirloop]. rewrite (Hf d (or_introl eq_refl)), (cache_dir s d D H1), E. destruct (Z.eqb_spec src p) as [->|Ne].
    - exists Refuse. split; [reflexivity|]. split; [intros _; now apply above_one|reflexivity].
    - exists v. split; [exact Ev|]. rewrite Hv. split; [intros A; now apply above_more with (p := p)|]. intros A. inversion A; subst; congruence. }
  destruct T as [->|A]; [exact Root|]. remember 1 as r eqn:Hr in A at 1. induction A as [d p D H1 E|d p a D H1 E A IH]; intros Hf; apply (Step d p D H1 E Hf); [subst p; exact Root|exact (IH Hr)].
Qed.

Lemma keep s s' (bad : Z -> Prop) : Inv s ->
  (forall d, directory s d -> ~ bad d -> d <> 1 -> directory s' d /\ lookup s' d DOTDOT = lookup s d DOTDOT) ->
  (forall d q, directory s d -> ~ bad d -> d <> 1 -> lookup s d DOTDOT = Some q -> ~ bad q) ->
  forall d, in_tree s d -> ~ bad d -> in_tree s' d.
Proof.
  intros I K C d [->|A] B; [now left|]. right. remember 1 as r eqn:Hr in A at 1. rewrite <- Hr. induction A as [d p D H1 E|d p a D H1 E A IH]; destruct (K d D B H1) as [D' E'].
  - apply above_one; [exact D'|exact H1|congruence].
  - apply above_more with (p := p); [exact D'|exact H1|congruence|]. apply IH; [exact Hr|exact (C d p D B H1 E)].
Qed.
Lemma above_app s a b c : above s a b -> above s b c -> above s a c.
Proof. intros A B. induction A as [d p D H1 E|d p x D H1 E A IH]; [now apply above_more with (p := p)|apply above_more with (p := p); auto]. Qed.

(** the request is checked before it is carried out, and the kernel does not ask to move a directory into itself *)
Definition checked (s : fs) (o : op) : Prop :=
  match o with
  | Rename p fd n np newino nn => directory s fd -> np <> fd /\ exists fuel, dirloop (cache s) fuel fd np = Some Accept
  | _ => True
  end.
Lemma dirloop_fuel files src i : forall f1 f2 v1 v2, dirloop files f1 src i = Some v1 -> dirloop files f2 src i = Some v2 -> v1 = v2.
Proof.
  intros f1. revert i. induction f1 as [|f1 IH]; intros i f2 v1 v2 E1 E2; [discriminate|]. destruct f2 as [|f2]; [discriminate|]. cbn [dirloop] in *. destruct (files i) as [[q|]|]; [|congruence|discriminate]. destruct (src =? q); [congruence|]. exact (IH q f2 v1 v2 E1 E2).
Qed.
Lemma tree_step s o r s' : hash DOT <> hash DOTDOT -> Inv s -> (forall d, directory s d -> in_tree s d) -> legal s o -> checked s o -> Did s o r s' ->
  forall d, directory s' d -> in_tree s' d.
Proof.
  intros Hh I T L C D. pose proof (did_inv _ _ _ _ _ _ D) as I'. pose proof (did_kind _ _ _ _ _ _ D) as Kd. pose proof (did_names _ _ _ _ _ _ D) as HN. pose proof (did_out _ _ _ _ _ _ D Hh) as Ho.
  assert (Dk : forall t i, directory t i <-> kind t i = Some true) by (intros t i; rewrite directory_isdir; apply isdir_kind).
  assert (Dot : forall n, ordinary n -> forall d p, same d DOTDOT p n = false). { intros n On d p. destruct (same_spec d DOTDOT p n) as [[_ <-]|]; [now destruct (proj2 On)|reflexivity]. }
  assert (Same : (forall i, kind s' i = Some true <-> kind s i = Some true) -> (forall d, directory s d -> lookup s' d DOTDOT = lookup s d DOTDOT) -> forall d, directory s' d -> in_tree s' d).
  { intros H1 H2 d Hd. assert (Hd' : directory s d) by (apply Dk, H1, Dk, Hd). apply (keep s s' (fun _ => False) I); auto. intros x Dx _ _. split; [apply Dk, H1, Dk, Dx|auto]. }
  assert (Full : forall d q, directory s d -> d <> 1 -> lookup s d DOTDOT = Some q -> exists n, ordinary n /\ lookup s q n = Some d).
  { intros d q Dd H1 E. destruct (parent s d I Dd H1) as (q' & n & On & El & E' & _). assert (q' = q) by congruence. subst. eauto. }
  destruct r as [j|e].
  2:{ apply Same; [intros i; rewrite Kd; destruct o; reflexivity|]. intros d _. rewrite HN, expected_err. reflexivity. }
  destruct o as [p n|p n|p k n|p n a|p n|p fd n np newino nn|k|e]; cbn [expected Names_Spec.legal outcome checked] in *.
  - apply Same; [|intros d _; rewrite HN, (Dot n) by apply L; reflexivity]. intros i. rewrite Kd. destruct (Z.eqb_spec i j) as [->|]; [|reflexivity]. unfold getattr in Ho. unfold kind. destruct (inodes s j); [discriminate|cbn; split; discriminate].
  - intros d Hd. assert (Old : forall d, directory s d -> in_tree s' d).
    { intros x Dx. apply (keep s s' (fun _ => False) I); auto. intros y Dy _ _. assert (y <> j). { intros ->. destruct Dy as (k & G). congruence. } split; [|rewrite HN, (Dot n) by apply L; destruct (Z.eqb_spec y j); [contradiction|reflexivity]]. apply Dk. rewrite Kd. destruct (Z.eqb_spec y j); [contradiction|now apply Dk]. }
    apply Dk in Hd. rewrite Kd in Hd. destruct (Z.eqb_spec d j) as [Edj|Edj]; [|apply Old, Dk, Hd]. rewrite Edj. destruct L as (Dp & On & _). destruct (Z.eq_dec j 1) as [->|Hj]; [now left|].
    assert (Dj : directory s' j) by (apply Dk; rewrite Kd, Z.eqb_refl; reflexivity). assert (Ej : lookup s' j DOTDOT = Some p). { rewrite HN, (Dot n On), Z.eqb_refl. reflexivity. }
    right. destruct (Old p Dp) as [->|A]; [now apply above_one|now apply above_more with (p := p)].
  - apply Same; [intros i; rewrite Kd; reflexivity|]. intros d _. rewrite HN, (Dot n) by apply L. reflexivity.
  - apply Same; [|intros d _; rewrite HN, (Dot n) by apply L; reflexivity]. intros i. rewrite Kd. destruct (Z.eqb_spec i j) as [->|]; cbn [andb]; [|reflexivity]. destruct L as (_ & _ & L). pose proof (proj1 (plain_kind s j) (L j Ho)) as K. rewrite K. destruct ((refs s j =? 1) && negb a); split; discriminate.
  - intros d Hd. apply Dk in Hd. rewrite Kd in Hd. destruct (Z.eqb_spec d j) as [|Hj]; [discriminate|]. apply Dk in Hd. destruct L as (_ & On & _). apply (keep s s' (fun x => x = j) I); [| |apply T; exact Hd|exact Hj].
    + intros x Dx Hx _. split; [apply Dk; rewrite Kd; destruct (Z.eqb_spec x j); [contradiction|now apply Dk]|]. rewrite HN, (Dot n On). destruct (Z.eqb_spec x j); [contradiction|reflexivity].
    + intros x q Dx Hx H1 E ->. destruct (Full x j Dx H1 E) as (m & Om & El). destruct Ho as [_ Ho]. destruct (Ho m x El) as [X|X]; [now apply (proj1 Om)|now apply (proj2 Om)].
  - destruct L as (Dp & Dnp & On & Elf & Eln & Hk). destruct Ho as (_ & Onn & Hem). cbn zeta in HN.
    set (victim := fun x => newino = Some x /\ directory s x /\ (p, n) <> (np, nn)).
    assert (Vgone : forall x, match newino with Some v => (match getattr s v with Some (b, _) => b | None => false end) && negb (same p n np nn) && (x =? v) | None => false end = true <-> victim x).
    { intros x. unfold victim. destruct newino as [v|]; [|split; [discriminate|intros [X _]; discriminate]]. rewrite !andb_true_iff, negb_true_iff. destruct (same_spec p n np nn) as [[-> ->]|Hs].
      - split; [intros [[_ X] _]; discriminate|intros (_ & _ & X); congruence].
      - split; [intros [[X _] Y]; apply Z.eqb_eq in Y; subst x; split; [reflexivity|split; [|intros Z; apply Hs; injection Z; auto]]; unfold directory; destruct (getattr s v) as [[b k]|]; [subst b; eauto|discriminate]|]. intros (X & (k & G) & _). injection X as ->. rewrite G, Z.eqb_refl. auto. }
    assert (Vempty : forall v m w, victim v -> ordinary m -> lookup s v m <> Some w). { intros v m w (V1 & V2 & _) Om El. destruct (Hem v m w V1 V2 El) as [X|X]; [now apply (proj1 Om)|now apply (proj2 Om)]. }
    assert (Vfd : ~ victim fd). { intros (V1 & V2 & V3). destruct (Z.eq_dec fd 1) as [->|H1].
      - destruct (counts hash dhash s I) as (_ & _ & (k & L0 & _ & [_ X] & _) & _). apply (proj2 (X p n)). auto.
      - destruct V2 as (k & G). destruct (counts hash dhash s I) as (_ & X & _). destruct (X fd k G H1) as (_ & (q & m & [_ HL] & _) & _). destruct (proj2 (HL p n) (conj Onn Elf)) as [E1|[]]. rewrite V1 in Eln. destruct (proj2 (HL np nn) (conj On Eln)) as [E2|[]]. congruence. }
    assert (Vnp : ~ victim np). { intros V. destruct V as (V1 & V2 & V3). apply (Vempty np nn np); [split; auto|exact On|]. rewrite Eln. exact V1. }
    assert (Dir : forall x, directory s' x <-> directory s x /\ ~ victim x).
    { intros x. rewrite !Dk, Kd. unfold replaced. destruct (hit_spec p n np nn) as [[E1 E2]|Hs]; [split; [intros X; split; [exact X|intros (_ & _ & Y); congruence]|tauto]|]. destruct (Names_Ops.N hash s np nn) as [[v b']|] eqn:En.
      - pose proof (N_kind hash dhash s np nn v b' I En On) as Kv. assert (Env : newino = Some v) by (rewrite <- Eln; apply lookup_some; eauto). destruct (Z.eqb_spec x v) as [->|Hx]; cbn [andb].
        + unfold victim. rewrite Dk, Kv. destruct b'; cbn [orb].
          * split; [discriminate|]. intros [_ X]. exfalso. apply X. split; [exact Env|]. split; [reflexivity|]. intros Y. apply Hs. injection Y; auto.
          * destruct (refs s v =? 1); rewrite ?Kv; split; try discriminate; intros [X _]; discriminate.
        + split; [intros X; split; [exact X|]|tauto]. intros (Y & _). congruence.
      - split; [intros X; split; [exact X|]|tauto]. intros (Y & _). apply lookup_none in En. congruence. }
    assert (Par : forall x, directory s x -> ~ victim x -> lookup s' x DOTDOT = if (match getattr s fd with Some (b, _) => b | None => false end) && negb (p =? np) && (x =? fd) then Some np else lookup s x DOTDOT).
    { intros x Dx Vx. rewrite HN. destruct (match newino with Some v => _ | None => _ end) eqn:Eg; [apply Vgone in Eg; contradiction|]. rewrite (Dot nn On), (Dot n Onn). unfold same. rewrite (proj2 (name_eqb_spec DOTDOT DOTDOT) eq_refl), andb_true_r. reflexivity. }
    assert (Cv : forall x q, directory s x -> x <> 1 -> lookup s x DOTDOT = Some q -> ~ victim q). { intros x q Dx H1 E V. destruct (Full x q Dx H1 E) as (m & Om & El). exact (Vempty q m x V Om El). }
    destruct (getattr s fd) as [[[|] kf]|] eqn:Gf.
    2,3: intros d Hd; apply Dir in Hd; destruct Hd as [Hd Hv]; apply (keep s s' victim I); [|intros x q Dx _ H1 E; exact (Cv x q Dx H1 E)|apply T; exact Hd|exact Hv]; intros x Dx Vx _; split; [now apply Dir|]; rewrite (Par x Dx Vx); reflexivity.
    assert (Df : directory s fd) by (exists kf; exact Gf). destruct (C Df) as (Nf & fuel & Ac). cbn [andb] in Par.
    assert (NA : ~ above s np fd). { destruct (dirloop_spec s (cache s) fd I np (T np Dnp)) as (f' & v & Ev & Hv); [auto|]. rewrite (dirloop_fuel _ _ _ _ _ _ _ Ev Ac) in Hv. intros A. apply Hv in A. discriminate. }
    assert (F1 : fd <> 1). { intros ->. destruct (counts hash dhash s I) as (_ & _ & (k & L0 & _ & [_ X] & _) & _). apply (proj2 (X p n)). auto. }
    assert (Tnp : in_tree s' np).
    { apply (keep s s' (fun x => victim x \/ x = fd \/ above s x fd) I); [| |apply T; exact Dnp|tauto].
      - intros x Dx Bx _. split; [apply Dir; tauto|]. rewrite Par by tauto. destruct (Z.eqb_spec x fd); [tauto|now rewrite andb_false_r].
      - intros x q Dx Bx H1 E [V|[->|A]]; [exact (Cv x q Dx H1 E V)| |]; apply Bx; right; right; [now apply above_one|now apply above_more with (p := q)]. }
    assert (Tfd : in_tree s' fd).
    { assert (Efd : lookup s' fd DOTDOT = Some np). { rewrite (Par fd Df Vfd), Z.eqb_refl, andb_true_r. destruct (Z.eqb_spec p np) as [->|]; [|reflexivity]. cbn [negb]. destruct (counts hash dhash s I) as (_ & X & _). destruct (X fd kf Gf F1) as (_ & (q & m & [_ HL] & Eq) & _). destruct (proj2 (HL np n) (conj Onn Elf)) as [E1|[]]. congruence. }
      assert (Df' : directory s' fd) by (apply Dir; auto). right. destruct Tnp as [->|A]; [now apply above_one|now apply above_more with (p := np)]. }
    intros d Hd. apply Dir in Hd. destruct Hd as [Hd Hv]. destruct (T d Hd) as [->|A]; [now left|]. remember 1 as rt eqn:Hr in A. induction A as [d q D0 H1 E|d q a D0 H1 E A IH]; (destruct (Z.eq_dec d fd) as [->|Hf]; [exact Tfd|]);
      (assert (Ed : lookup s' d DOTDOT = Some q) by (rewrite (Par d D0 Hv); destruct (Z.eqb_spec d fd); [contradiction|now rewrite andb_false_r])); (assert (Dd : directory s' d) by (apply Dir; auto)); right.
    + subst q. now apply above_one.
    + destruct (parent s d I D0 H1) as (q' & _ & _ & _ & Eq' & Dq). assert (q' = q) by congruence. subst q'. destruct (IH Dq (Cv d q D0 H1 E) Hr) as [->|A']; [now apply above_one|now apply above_more with (p := q)].
  - apply Same; [|intros d _; rewrite HN; reflexivity]. intros i. rewrite Kd. destruct (Z.eqb_spec i k) as [->|]; cbn [andb]; [|reflexivity]. destruct (dead s k) eqn:Dd; [|reflexivity]. rewrite (dead_plain s k Dd). split; discriminate.
  - apply Same; [|intros d _; rewrite HN; reflexivity]. intros i. rewrite Kd. destruct (dead s i) eqn:Dd; [|reflexivity]. rewrite (dead_plain s i Dd). split; discriminate.
Qed.

Lemma tree_run : hash DOT <> hash DOTDOT -> forall l s, Inv s -> (forall d, directory s d -> in_tree s d) -> run_where (fun s o => legal s o /\ lucky s o /\ checked s o) s l ->
  exists rs s', run s l = Some (rs, s') /\ Inv s' /\ forall d, directory s' d -> in_tree s' d.
Proof.
  intros Hh. induction l as [|o l IH]; intros s I T L; [exists [], s; auto|]. destruct L as [(L1 & L2 & L3) L]. destruct (legal_step hash dhash s o I L1 L2) as (r & s1 & E & D). cbn [Names_Model.run]. rewrite E in *.
  destruct (IH s1 (did_inv _ _ _ _ _ _ D) (tree_step s o r s1 Hh I T L1 L3 D) L) as (rs & s' & R & I' & T'). rewrite R. eauto.
Qed.
Lemma tree_new : hash DOT <> hash DOTDOT -> forall d, directory new_fs d -> in_tree new_fs d.
Proof. intros Hh d (k & G). left. unfold getattr, Names_Model.new_fs in G. cbn in G. unfold upd in G. destruct (Z.eqb_spec d 1); [assumption|discriminate]. Qed.

(** If every directory rename passes the check and does not move a directory into itself, then nothing panics, every directory
    stays connected to the root, and the check ends and refuses exactly the moves of a directory below itself. *)
Theorem C48_dirloop_partial : hash DOT <> hash DOTDOT -> forall l, run_where (fun s o => legal s o /\ lucky s o /\ checked s o) new_fs l ->
  exists rs s, run new_fs l = Some (rs, s) /\ (forall d, directory s d -> in_tree s d) /\
    forall files src np, directory s np -> (forall a, a = np \/ above s np a -> files a = cache s a) ->
      exists fuel v, dirloop files fuel src np = Some v /\ (v = Refuse <-> above s np src).
Proof.
  intros Hh l L. destruct (tree_run Hh l new_fs (new_fs_inv hash dhash Hh) (tree_new Hh) L) as (rs & s & R & I & T). exists rs, s. split; [exact R|]. split; [exact T|]. intros files src np Dn Hf. apply dirloop_spec; auto.
Qed.
End Props.

(** ** Deciding whether a history is legal, for hash functions of which [dhash] is injective *)
Section Check.
Context (hash : name -> Z) (dhash : Z -> Z).
Definition isdirb (s : fs) (d : Z) : bool := match getattr s d with Some (true, _) => true | _ => false end.
Definition isfileb (s : fs) (d : Z) : bool := match getattr s d with Some (false, _) => true | _ => false end.
Definition absentb (s : fs) (d : Z) (n : name) : bool := match lookup hash s d n with None => true | _ => false end.
Definition ordb (n : name) : bool := negb (name_eqb n DOT) && negb (name_eqb n DOTDOT).
Definition legalb (s : fs) (o : op) : bool :=
  match o with
  | Create p n | Mkdir p n => isdirb s p && ordb n && absentb s p n
  | Link p i n => isdirb s p && ordb n && match getattr s i with Some (false, k) => 0 <? k | _ => false end && absentb s p n
  | Unlink p n a => isdirb s p && ordb n && match lookup hash s p n with Some i => isfileb s i | None => true end
  | Rmdir p n => isdirb s p && ordb n && match lookup hash s p n with Some i => isdirb s i | None => true end
  | Rename p fd n np newino nn => isdirb s p && isdirb s np && ordb nn && match lookup hash s p n with Some i => i =? fd | None => false end &&
      match lookup hash s np nn, newino with Some i, Some j => i =? j | None, None => true | _, _ => false end &&
      match newino with Some v => Bool.eqb (isdirb s v) (isdirb s fd) | None => true end
  | Inactive i => true
  | Mount _ => true
  end.
Lemma isdirb_ok s d : isdirb s d = true <-> directory s d.
Proof. unfold isdirb, directory. destruct (getattr s d) as [[[|] k]|]; split; try discriminate; eauto; intros (k' & E); discriminate. Qed.
Lemma isfileb_ok s d : isfileb s d = true -> plain s d.
Proof. unfold isfileb, plain. destruct (getattr s d) as [[[|] k]|]; try discriminate. eauto. Qed.
Lemma ordb_ok n : ordb n = true -> ordinary n.
Proof. unfold ordb. intros H. apply andb_true_iff in H. destruct H as [A B]. apply negb_true_iff in A, B. split; intros ->; [rewrite (proj2 (name_eqb_spec DOT DOT) eq_refl) in A|rewrite (proj2 (name_eqb_spec DOTDOT DOTDOT) eq_refl) in B]; discriminate. Qed.
Lemma absentb_ok s d n : absentb s d n = true -> lookup hash s d n = None.
Proof. unfold absentb. destruct (lookup hash s d n); [discriminate|reflexivity]. Qed.
Lemma legalb_ok s o : legalb s o = true -> legal hash s o.
Proof.
  destruct o as [p n|p n|p i n|p n a|p n|p fd n np newino nn|i|e]; cbn [legalb legal]; try exact (fun _ => I).
  - intros H. repeat (apply andb_true_iff in H as [H ?]). split; [now apply isdirb_ok|split; [now apply ordb_ok|now apply absentb_ok]].
  - intros H. repeat (apply andb_true_iff in H as [H ?]). split; [now apply isdirb_ok|split; [now apply ordb_ok|now apply absentb_ok]].
  - intros H. apply andb_true_iff in H as [H H1]. apply andb_true_iff in H as [H H2]. apply andb_true_iff in H as [H H3]. split; [now apply isdirb_ok|]. split; [now apply ordb_ok|]. split; [|now apply absentb_ok]. destruct (getattr s i) as [[[|] k]|]; try discriminate. exists k. split; [reflexivity|]. now apply Z.ltb_lt.
  - intros H. apply andb_true_iff in H as [H H1]. apply andb_true_iff in H as [H H2]. split; [now apply isdirb_ok|]. split; [now apply ordb_ok|]. intros i Ei. rewrite Ei in H1. now apply isfileb_ok.
  - intros H. apply andb_true_iff in H as [H H1]. apply andb_true_iff in H as [H H2]. split; [now apply isdirb_ok|]. split; [now apply ordb_ok|]. intros i Ei. rewrite Ei in H1. now apply isdirb_ok.
  - intros H. apply andb_true_iff in H as [H H5]. apply andb_true_iff in H as [H H4]. apply andb_true_iff in H as [H H3]. apply andb_true_iff in H as [H H2]. apply andb_true_iff in H as [H H1]. split; [now apply isdirb_ok|]. split; [now apply isdirb_ok|]. split; [now apply ordb_ok|]. split.
    + destruct (lookup hash s p n) as [x|]; [|discriminate]. apply Z.eqb_eq in H3. now subst.
    + split.
      * destruct (lookup hash s np nn) as [x|], newino as [y|]; try discriminate; [|reflexivity]. apply Z.eqb_eq in H4. now subst.
      * intros v ->. apply eqb_prop in H5. rewrite <- !isdirb_ok, H5. reflexivity.
Qed.
Definition luckyb (s : fs) (o : op) : bool :=
  match o with
  | Link p i n => match dget (ents s p) (hash n) with None => true | _ => false end
  | _ => true
  end.
Lemma luckyb_ok s o : (forall i j, dhash i = dhash j -> i = j) -> luckyb s o = true -> lucky hash dhash s o.
Proof.
  intros Inj. destruct o as [p n|p n|p i n|p n a|p n|p fd n np newino nn|i|e]; cbn [luckyb lucky]; try exact (fun _ => I).
  - intros H m j E Eh. unfold lookup, dir_get, ht_get in E. rewrite Eh in E. destruct (dget (ents s p) (hash n)); discriminate.
  - intros _ i _ _ G j Gj E. apply Inj in E. subst j. congruence.
  - intros _ j _ E. now apply Inj.
Qed.
Fixpoint all_steps (P : fs -> op -> bool) (s : fs) (l : list op) : bool :=
  match l with
  | [] => true
  | o :: r => P s o && match step hash dhash s o with Some (_, s1) => all_steps P s1 r | None => true end
  end.
Lemma all_steps_ok (P : fs -> op -> bool) (Q : fs -> op -> Prop) : (forall s o, P s o = true -> Q s o) -> forall l s, all_steps P s l = true -> run_where hash dhash Q s l.
Proof.
  intros HP. induction l as [|o l IH]; intros s H; [exact I|]. cbn [all_steps run_where] in *. apply andb_true_iff in H. destruct H as [H1 H2]. split; [now apply HP|]. destruct (step hash dhash s o) as [[r s1]|]; auto.
Qed.
Lemma legal_runb (Inj : forall i j, dhash i = dhash j -> i = j) s l : all_steps (fun s o => legalb s o && luckyb s o) s l = true -> legal_run hash dhash s l.
Proof. apply all_steps_ok. intros t o H. apply andb_true_iff in H. destruct H as [A B]. split; [now apply legalb_ok|now apply luckyb_ok]. Qed.
End Check.

(** A hash function with collisions *)
Definition hash7 (n : name) : Z := fold_left Z.add n 0 mod 7.
Definition did (i : Z) : Z := i.
Lemma did_inj i j : did i = did j -> i = j. Proof. exact (fun H => H). Qed.
Definition na : name := [97].
Definition nb : name := [98].
Definition nc : name := [100].
Definition nh : name := [104].   (* collides with "a" *)

(** ** C38, C60, C40, C41: a long legal history: files, links, colliding names, directories, renames over files and directories *)
Definition history : list op :=
  [Create 1 na; Create 1 nh; Mkdir 1 nb; Mkdir 4 na; Link 5 2 nc; Mkdir 5 na; Rename 5 6 na 5 None nb; Rename 1 3 nh 5 (Some 2) nc; Unlink 5 nc true;
   Rmdir 1 nb; Mkdir 1 nc; Rename 5 6 nb 1 (Some 7) nc; Inactive 3; Mount false; Create 6 na].
Example history_legal : legal_run hash7 did (new_fs hash7) history.
Proof. apply legal_runb; [exact did_inj|]. vm_compute. reflexivity. Qed.
Example C38_example : exists rs s, run hash7 did (new_fs hash7) history = Some (rs, s) /\ length rs = 15%nat /\ getattr s 1 = Some (true, 3) /\ getattr s 6 = Some (true, 2) /\ getattr s 2 = Some (false, 1).
Proof. destruct (run hash7 did (new_fs hash7) history) as [[rs s]|] eqn:E; vm_compute in E; [|discriminate]. injection E as <- <-. eexists _, _. split; [reflexivity|]. vm_compute. auto. Qed.

(** The full claim fails for the root, whose link count is one less than two plus its number of subdirectories. *)
Theorem C38_root_refuted : exists hash dhash l rs s k L, hash DOT <> hash DOTDOT /\ legal_run hash dhash (new_fs hash) l /\
  run hash dhash (new_fs hash) l = Some (rs, s) /\ getattr s 1 = Some (true, k) /\ subdirs_of hash s 1 L /\ k <> 2 + Z.of_nat (length L).
Proof.
  assert (Hh : hash7 DOT <> hash7 DOTDOT) by (vm_compute; discriminate). destruct (C38_link_counts_partial hash7 did Hh history history_legal) as (rs & s & R & _ & _ & (k & L & G & _ & SL & E) & _).
  exists hash7, did, history, rs, s, k, L. split; [exact Hh|]. split; [exact history_legal|]. split; [exact R|]. split; [exact G|]. split; [exact SL|]. lia.
Qed.
(** Link overwrites a name with the same hash: a file with one link and without a name. *)
Definition link_history : list op := [Create 1 na; Create 1 nb; Link 1 3 nh].
Lemma link_legal : run_where hash7 did (legal hash7) (new_fs hash7) link_history.
Proof. apply (all_steps_ok hash7 did (legalb hash7)); [exact (legalb_ok hash7)|]. vm_compute. reflexivity. Qed.
Theorem C38_link_collision_refuted : exists hash dhash l rs s, hash DOT <> hash DOTDOT /\ run_where hash dhash (legal hash) (new_fs hash) l /\
  run hash dhash (new_fs hash) l = Some (rs, s) /\ getattr s 2 = Some (false, 1) /\ forall d n, lookup hash s d n <> Some 2.
Proof.
  exists hash7, did, link_history. destruct (run hash7 did (new_fs hash7) link_history) as [[rs s]|] eqn:E; [|vm_compute in E; discriminate]. exists rs, s. split; [vm_compute; discriminate|]. split; [exact link_legal|]. split; [reflexivity|].
  vm_compute in E. injection E as _ <-. split; [vm_compute; reflexivity|]. intros d n H. apply lookup_in in H. destruct H as (m & b & H). cbn [ents] in H. destruct d as [|[p|p|]|p]; vm_compute in H; try contradiction. repeat (destruct H as [H|H]; [discriminate|]). contradiction.
Qed.
Theorem C40_link_refuted : exists hash dhash l rs s s', hash DOT <> hash DOTDOT /\ legal_run hash dhash (new_fs hash) l /\ run hash dhash (new_fs hash) l = Some (rs, s) /\
  legal hash s (Link 1 3 nh) /\ step hash dhash s (Link 1 3 nh) = Some (ROk 3, s') /\ lookup hash s 1 na = Some 2 /\ lookup hash s' 1 na = None.
Proof.
  exists hash7, did, [Create 1 na; Create 1 nb]. destruct (run hash7 did (new_fs hash7) [Create 1 na; Create 1 nb]) as [[rs s]|] eqn:E; [|vm_compute in E; discriminate].
  assert (A : legalb hash7 s (Link 1 3 nh) = true) by (vm_compute in E; injection E as _ <-; vm_compute; reflexivity).
  assert (B : lookup hash7 s 1 na = Some 2) by (vm_compute in E; injection E as _ <-; vm_compute; reflexivity).
  assert (C : exists s', step hash7 did s (Link 1 3 nh) = Some (ROk 3, s') /\ lookup hash7 s' 1 na = None). { vm_compute in E. injection E as _ <-. eexists. split; [vm_compute; reflexivity|vm_compute; reflexivity]. }
  destruct C as (s' & C & D). exists rs, s, s'. split; [vm_compute; discriminate|]. split; [apply legal_runb; [exact did_inj|vm_compute; reflexivity]|]. split; [reflexivity|]. split; [now apply legalb_ok|]. auto.
Qed.
(** The example: three names in the directory, one of them in the same bucket as another *)
Example C40_example : exists rs s, run hash7 did (new_fs hash7) [Create 1 na; Create 1 nh] = Some (rs, s) /\ reachable hash7 did s /\ legal hash7 s (Link 1 3 nb) /\ lucky hash7 did s (Link 1 3 nb).
Proof.
  destruct (run hash7 did (new_fs hash7) [Create 1 na; Create 1 nh]) as [[rs s]|] eqn:E; [|vm_compute in E; discriminate]. exists rs, s. split; [reflexivity|]. split; [exists [Create 1 na; Create 1 nh], rs; split; [apply legal_runb; [exact did_inj|vm_compute; reflexivity]|exact E]|].
  vm_compute in E. injection E as _ <-. split; [apply legalb_ok; vm_compute; reflexivity|apply luckyb_ok; [exact did_inj|vm_compute; reflexivity]].
Qed.

(** C41: after unmounting, the number of a deleted file is given to the next new file. *)
Theorem C41_reuse_after_remount_refuted : exists hash dhash l rs s i, hash DOT <> hash DOTDOT /\ legal_run hash dhash (new_fs hash) l /\ run hash dhash (new_fs hash) l = Some (rs, s) /\
  nth_error l 0 = Some (Create 1 na) /\ nth_error rs 0 = Some (ROk i) /\ nth_error l 3 = Some (Create 1 nb) /\ nth_error rs 3 = Some (ROk i).
Proof.
  exists hash7, did, [Create 1 na; Unlink 1 na false; Mount true; Create 1 nb]. destruct (run hash7 did (new_fs hash7) [Create 1 na; Unlink 1 na false; Mount true; Create 1 nb]) as [[rs s]|] eqn:E; [|vm_compute in E; discriminate]. exists rs, s, 2. split; [vm_compute; discriminate|]. split; [apply legal_runb; [exact did_inj|vm_compute; reflexivity]|]. split; [reflexivity|]. vm_compute in E. injection E as <- _. auto.
Qed.
(** The history above has no mount between its first 13 operations *)
Example C41_example : legal_run hash7 did (new_fs hash7) (firstn 10 history ++ [Mkdir 1 nc]) /\ forallb (fun o => negb (is_mount o)) (firstn 10 history) = true.
Proof. split; [apply legal_runb; [exact did_inj|vm_compute; reflexivity]|reflexivity]. Qed.

(** ** C39 *)
Section Check39.
Context (hash : name -> Z) (dhash : Z -> Z).
Fixpoint all_esteps (P : fs -> (Z -> bool) -> op -> bool) (s : fs) (O : Z -> bool) (l : list ev) : bool :=
  match l with
  | [] => true
  | Do o :: r => P s O o && match step hash dhash s o with Some (x, s1) => all_esteps P s1 (opens O o x) r | None => true end
  | Look i :: r => match getattr s i with Some (false, k) => 0 <? k | _ => false end && all_esteps P s (upd O i true) r
  end.
Lemma all_esteps_ok (P : fs -> (Z -> bool) -> op -> bool) (Q : fs -> (Z -> bool) -> op -> Prop) : (forall s O o, P s O o = true -> Q s O o) ->
  forall l s O, all_esteps P s O l = true -> ewhere hash dhash Q s O l.
Proof.
  intros HP. induction l as [|[o|i] l IH]; intros s O H; [exact I| |]; cbn [all_esteps ewhere] in *; apply andb_true_iff in H; destruct H as [H1 H2]; (split; [|]).
  - now apply HP.
  - destruct (step hash dhash s o) as [[r s1]|]; auto.
  - destruct (getattr s i) as [[[|] k]|]; try discriminate. exists k. split; [reflexivity|now apply Z.ltb_lt].
  - auto.
Qed.
Definition honestb (s : fs) (O : Z -> bool) (o : op) : bool := match o with Unlink p n a => match lookup hash s p n with Some i => Bool.eqb a (O i) | None => true end | _ => true end.
Lemma honestb_ok s O o : honestb s O o = true -> honest hash s O o.
Proof. destruct o; cbn [honestb honest]; try exact (fun _ => I). intros H i Ei. rewrite Ei in H. now apply eqb_prop. Qed.
Definition lucky39b (s : fs) (O : Z -> bool) (o : op) : bool :=
  match o with Rename p fd n np (Some v) nn => same p n np nn || negb (O v) || match getattr s v with Some (false, k) => negb (k =? 1) | _ => true end | _ => true end.
Lemma lucky39b_ok s O o : lucky39b s O o = true -> lucky39 s O o.
Proof.
  destruct o; cbn [lucky39b lucky39]; try exact (fun _ => I). intros H Ne v -> G. rewrite G, orb_false_r in H. apply orb_true_iff in H. destruct H as [H|H]; [|now destruct (O v)]. destruct (same_spec p n np nn) as [[-> ->]|]; [congruence|discriminate].
Qed.
End Check39.
(** open a file, remove both its names, rename over another file, release the first, remount *)
Definition history39 : list ev :=
  [Do (Create 1 na); Do (Link 1 2 nb); Do (Unlink 1 na true); Do (Unlink 1 nb true); Do (Create 1 na); Do (Inactive 3); Look 3; Do (Inactive 3); Do (Create 1 nh);
   Do (Rename 1 4 nh 1 (Some 3) na); Do (Inactive 2); Do (Unlink 1 na true); Do (Mount false)].
Example C39_example : ewhere hash7 did (fun s O o => legal hash7 s o /\ lucky hash7 did s o /\ honest hash7 s O o /\ lucky39 s O o) (new_fs hash7) (fun _ => false) history39.
Proof.
  apply (all_esteps_ok hash7 did (fun s O o => legalb hash7 s o && luckyb hash7 s o && honestb hash7 s O o && lucky39b s O o)); [|vm_compute; reflexivity]. intros s O o H. apply andb_true_iff in H as [H H1]. apply andb_true_iff in H as [H H2]. apply andb_true_iff in H as [H H3].
  split; [now apply legalb_ok|]. split; [apply luckyb_ok; [exact did_inj|exact H3]|]. split; [now apply honestb_ok|now apply lucky39b_ok].
Qed.
Example C39_example_nameless : exists s O, erun hash7 did (new_fs hash7) (fun _ => false) (firstn 5 history39) = Some (s, O) /\ getattr s 2 = Some (false, 0) /\ O 2 = true.
Proof. destruct (erun hash7 did (new_fs hash7) (fun _ => false) (firstn 5 history39)) as [[s O]|] eqn:E; vm_compute in E; [|discriminate]. injection E as <- <-. eexists _, _. split; [reflexivity|]. vm_compute. auto. Qed.

(** Renaming over an open file that has no other name deletes it at once. *)
Theorem C39_rename_over_open_refuted : exists hash dhash l s O i, hash DOT <> hash DOTDOT /\
  ewhere hash dhash (fun s O o => legal hash s o /\ lucky hash dhash s o /\ honest hash s O o) (new_fs hash) (fun _ => false) l /\
  erun hash dhash (new_fs hash) (fun _ => false) l = Some (s, O) /\ O i = true /\ getattr s i = None.
Proof.
  exists hash7, did, [Do (Create 1 na); Do (Create 1 nb); Do (Rename 1 3 nb 1 (Some 2) na)]. destruct (erun hash7 did (new_fs hash7) (fun _ => false) [Do (Create 1 na); Do (Create 1 nb); Do (Rename 1 3 nb 1 (Some 2) na)]) as [[s O]|] eqn:E; [|vm_compute in E; discriminate]. exists s, O, 2.
  split; [vm_compute; discriminate|]. split; [|split; [reflexivity|vm_compute in E; injection E as <- <-; vm_compute; auto]].
  apply (all_esteps_ok hash7 did (fun s O o => legalb hash7 s o && luckyb hash7 s o && honestb hash7 s O o)); [|vm_compute; reflexivity]. intros s' O' o H. apply andb_true_iff in H as [H H1]. apply andb_true_iff in H as [H H2]. split; [now apply legalb_ok|]. split; [apply luckyb_ok; [exact did_inj|exact H2]|now apply honestb_ok].
Qed.
(** Two open files without names whose inode numbers have the same hash: a panic. *)
Theorem C39_dying_collision_refuted : exists hash dhash l, hash DOT <> hash DOTDOT /\
  ewhere hash dhash (fun s O o => legal hash s o /\ honest hash s O o /\ lucky39 s O o) (new_fs hash) (fun _ => false) l /\ erun hash dhash (new_fs hash) (fun _ => false) l = None.
Proof.
  exists hash7, (fun i => i / 2), [Do (Create 1 na); Do (Create 1 nb); Do (Unlink 1 na true); Do (Unlink 1 nb true)]. split; [vm_compute; discriminate|]. split; [|vm_compute; reflexivity].
  apply (all_esteps_ok hash7 (fun i => i / 2) (fun s O o => legalb hash7 s o && honestb hash7 s O o && lucky39b s O o)); [|vm_compute; reflexivity]. intros s' O' o H. apply andb_true_iff in H as [H H1]. apply andb_true_iff in H as [H H2]. split; [now apply legalb_ok|]. split; [now apply honestb_ok|now apply lucky39b_ok].
Qed.

(** ** C48 *)
Definition checkedb (hash : name -> Z) (s : fs) (o : op) : bool :=
  match o with Rename p fd n np newino nn => negb (isdirb s fd) || negb (np =? fd) && match dirloop (cache hash s) 20 fd np with Some Accept => true | _ => false end | _ => true end.
Lemma checkedb_ok hash s o : checkedb hash s o = true -> checked hash s o.
Proof.
  destruct o; cbn [checkedb checked]; try exact (fun _ => I). intros H D. rewrite (proj2 (isdirb_ok s fd) D) in H. cbn [negb orb] in H. apply andb_true_iff in H. destruct H as [H1 H2]. split; [intros ->; rewrite Z.eqb_refl in H1; discriminate|]. exists 20%nat. destruct (dirloop _ _ _ _) as [[|]|]; congruence.
Qed.
Definition history48 : list op := [Mkdir 1 na; Mkdir 2 na; Mkdir 3 na; Mkdir 1 nb; Rename 2 3 na 5 None nc; Create 4 nb; Rename 1 2 na 4 None nc; Rmdir 4 nc; Rename 4 6 nb 1 None na].
Example C48_example : run_where hash7 did (fun s o => legal hash7 s o /\ lucky hash7 did s o /\ checked hash7 s o) (new_fs hash7) history48.
Proof.
  apply (all_steps_ok hash7 did (fun s o => legalb hash7 s o && luckyb hash7 s o && checkedb hash7 s o)); [|vm_compute; reflexivity]. intros s o H. apply andb_true_iff in H as [H H1]. apply andb_true_iff in H as [H H2]. split; [now apply legalb_ok|]. split; [apply luckyb_ok; [exact did_inj|exact H2]|now apply checkedb_ok].
Qed.
(** At the end 5/c/a is the directory 4, and moving 5 into it is refused *)
Example C48_example_refused : exists rs s, run hash7 did (new_fs hash7) history48 = Some (rs, s) /\ dirloop (cache hash7 s) 20 5 4 = Some Refuse /\ dirloop (cache hash7 s) 20 4 5 = Some Accept.
Proof. destruct (run hash7 did (new_fs hash7) history48) as [[rs s]|] eqn:E; vm_compute in E; [|discriminate]. injection E as <- <-. eexists _, _. split; [reflexivity|]. vm_compute. auto. Qed.
(** A directory may be moved into itself: the check accepts it, the file system does it, and the directory is lost. *)
Theorem C48_into_itself_refuted : exists hash dhash l rs s s', hash DOT <> hash DOTDOT /\ legal_run hash dhash (new_fs hash) l /\ run hash dhash (new_fs hash) l = Some (rs, s) /\
  legal hash s (Rename 1 2 na 2 None nb) /\ dirloop (cache hash s) 20 2 2 = Some Accept /\
  step hash dhash s (Rename 1 2 na 2 None nb) = Some (ROk 2, s') /\ directory s' 2 /\ ~ in_tree hash s' 2.
Proof.
  exists hash7, did, [Mkdir 1 na]. destruct (run hash7 did (new_fs hash7) [Mkdir 1 na]) as [[rs s]|] eqn:E; [|vm_compute in E; discriminate].
  assert (A : legalb hash7 s (Rename 1 2 na 2 None nb) = true /\ dirloop (cache hash7 s) 20 2 2 = Some Accept /\ exists s', step hash7 did s (Rename 1 2 na 2 None nb) = Some (ROk 2, s') /\ isdirb s' 2 = true /\ lookup hash7 s' 2 DOTDOT = Some 2).
  { vm_compute in E. injection E as _ <-. split; [vm_compute; reflexivity|]. split; [vm_compute; reflexivity|]. eexists. split; [vm_compute; reflexivity|]. vm_compute. auto. }
  destruct A as (A & B & s' & C & D & F). exists rs, s, s'. split; [vm_compute; discriminate|]. split; [apply legal_runb; [exact did_inj|vm_compute; reflexivity]|]. split; [reflexivity|]. split; [now apply legalb_ok|]. split; [exact B|]. split; [exact C|]. split; [now apply isdirb_ok|]. intros [X|X]; [discriminate|].
  assert (Loop : forall d a, above hash7 s' d a -> d = 2 -> a = 2). { intros d a Ab. induction Ab as [d p D0 H1 E0|d p a D0 H1 E0 _ IH]; intros ->; [congruence|]. apply IH. congruence. } discriminate (Loop 2 1 X eq_refl).
Qed.

Print Assumptions C38_link_counts_partial.
Print Assumptions C60_names_exact_partial.
Print Assumptions C40_link_partial.
Print Assumptions C41_not_reused_within_mount.
Print Assumptions C39_open_unlinked_partial.
Print Assumptions C39_mount_reaps.
Print Assumptions C48_dirloop_partial.
Print Assumptions C38_root_refuted.
Print Assumptions C38_link_collision_refuted.
Print Assumptions C40_link_refuted.
Print Assumptions C41_reuse_after_remount_refuted.
Print Assumptions C39_rename_over_open_refuted.
Print Assumptions C39_dying_collision_refuted.
Print Assumptions C48_into_itself_refuted.
