(** C95: what a mirror's reads and writes promise when disks fail; C96: repairing a zone of a mirror. *)
From Verif Require Import Common Vdev_Model Vdev_Props MirrorIO_Model.

(** * Specification *)

Section Spec.
Context {D : Type}.

Inductive request :=
| Write (lba : Z) (buf : list D) (outs : nat -> outcome D)
| Read (lba : Z) (len : nat) (idx : Z) (bad : nat -> bool)
| Fault (j : nat).
Inductive answer := Written (ok : bool) | Got (r : list D + error) | Done.
Definition handle (s : list (disk D)) (q : request) : list (disk D) * answer :=
  match q with
  | Write lba buf outs => let '(s', ok) := write_at s lba buf outs in (s', Written ok)
  | Read lba len idx bad => (s, Got (read_at s lba len idx bad))
  | Fault j => (fault_at s j, Done)
  end.
Fixpoint handle_all (s : list (disk D)) (qs : list request) : list (disk D) * list (request * answer) :=
  match qs with [] => (s, []) | q :: r => let '(s1, a) := handle s q in let '(s2, l) := handle_all s1 r in (s2, (q, a) :: l) end.

(** what a client knows of block [l] after an exchange: what the last write wrote to it, unless that write failed *)
Definition in_write (l lba : Z) (buf : list D) : bool := (lba <=? l) && (l <? lba + zlen buf).
Definition learn (l : Z) (k : option D) (x : request * answer) : option D :=
  match x with
  | (Write lba buf _, Written ok) => if in_write l lba buf then (if ok then nth_error buf (Z.to_nat (l - lba)) else None) else k
  | _ => k
  end.
Definition known (l : Z) (h : list (request * answer)) : option D := fold_left (learn l) h None.

Definition up (s : list (disk D)) (i : nat) : Prop := exists d, nth_error s i = Some d /\ d_leaf d = LPresent.
End Spec.
Arguments request : clear implicits.
Arguments answer : clear implicits.

(** * Proofs *)

Lemma list_ext {A} (l : list A) : forall m, (forall k, nth_error l k = nth_error m k) -> l = m.
Proof.
  induction l as [|a l IH]; intros [|b m] H; [reflexivity|discriminate (H 0%nat)|discriminate (H 0%nat)|].
  pose proof (H 0%nat) as E. injection E as ->. f_equal. apply IH. intros k. exact (H (S k)).
Qed.

Section Proofs.
Context {D : Type}.
Implicit Types (s : list (disk D)) (d : disk D).

Lemma holds_up s i : holds (leaves s) i <-> up s i.
Proof.
  unfold holds, up, leaves. rewrite nth_error_map. destruct (nth_error s i) as [d|]; cbn.
  - split; [intros E; injection E as E; eauto|intros (d' & E & H); injection E as <-; now rewrite H].
  - split; [discriminate|intros (d' & E & _); discriminate].
Qed.

Lemma write_nth s : forall lba buf k outs i, nth_error (write_disks lba buf k outs s) i = option_map (write_disk lba buf (outs (k + i)%nat)) (nth_error s i).
Proof.
  induction s as [|d s IH]; intros lba buf k outs [|i]; cbn; try reflexivity.
  - now rewrite Nat.add_0_r.
  - rewrite IH. now rewrite Nat.add_succ_r.
Qed.
Lemma stored_nth s : forall k outs, all_stored k outs s = true <-> (forall i, up s i -> outs (k + i)%nat = Stored).
Proof.
  induction s as [|d s IH]; intros k outs; cbn [all_stored].
  - split; [intros _ [|i] (d & E & _); discriminate|reflexivity].
  - rewrite andb_true_iff, IH. split.
    + intros [H1 H2] [|i] (d' & E & P); cbn in E.
      * injection E as <-. rewrite P in H1. cbn in H1. rewrite Nat.add_0_r. destruct (outs k); [reflexivity|discriminate].
      * rewrite Nat.add_succ_r. apply H2. now exists d'.
    + intros H. split.
      * destruct (leaf_present (d_leaf d)) eqn:P; [|reflexivity]. cbn. specialize (H 0%nat). rewrite Nat.add_0_r in H. rewrite H; [reflexivity|]. exists d. split; [reflexivity|now apply leaf_present_iff].
      * intros i (d' & E & P). specialize (H (S i)). rewrite Nat.add_succ_r in H. apply H. now exists d'.
Qed.
Lemma fault_nth s : forall j i, nth_error (fault_at s j) i = if Nat.eqb i j then option_map (fun d => Disk (leaf_fault (d_leaf d)) (d_blk d)) (nth_error s i) else nth_error s i.
Proof. induction s as [|d s IH]; intros [|j] [|i]; cbn; try reflexivity; try (now rewrite IH). now destruct (Nat.eqb i j). Qed.

Definition agree (s : list (disk D)) (k : Z -> option D) : Prop := forall l x i d, k l = Some x -> nth_error s i = Some d -> d_leaf d = LPresent -> d_blk d l = x.

Lemma nth_error_put lba buf (f : Z -> D) l x : in_write l lba buf = true -> nth_error buf (Z.to_nat (l - lba)) = Some x -> put_range lba buf f l = x.
Proof. unfold in_write, put_range. intros -> H. now apply nth_error_nth. Qed.

Lemma handle_agree s q k : agree s k -> agree (fst (handle s q)) (fun l => learn l (k l) (q, snd (handle s q))).
Proof.
  intros A. destruct q as [lba buf outs|lba len idx bad|j]; cbn [handle write_at fst snd].
  - intros l x i d K E P. rewrite write_nth in E. destruct (nth_error s i) as [d0|] eqn:E0; [|discriminate]. injection E as <-. cbn [Nat.add] in *.
    assert (P0 : d_leaf d0 = LPresent). { unfold write_disk in P. destruct (leaf_present (d_leaf d0)) eqn:Q; [now apply leaf_present_iff|]. exact P. }
    unfold write_disk. rewrite P0. cbn. cbn [learn] in K. destruct (in_write l lba buf) eqn:W.
    + destruct (all_stored 0 outs s) eqn:S; [|discriminate]. rewrite stored_nth in S. specialize (S i). cbn in S. rewrite S by (exists d0; auto). now apply nth_error_put.
    + unfold in_write in W. specialize (A l x i d0 K E0 P0). destruct (outs i); [unfold put_range|]; now rewrite W.
  - intros l x i d K. exact (A l x i d K).
  - intros l x i d K E P. rewrite fault_nth in E. destruct (Nat.eqb i j).
    + destruct (nth_error s i) as [d0|] eqn:E0; [|discriminate]. injection E as <-. cbn in *. destruct (d_leaf d0); discriminate.
    + exact (A l x i d K E P).
Qed.
Lemma run_agree qs : forall s k, agree s k -> agree (fst (handle_all s qs)) (fun l => fold_left (learn l) (snd (handle_all s qs)) (k l)).
Proof.
  induction qs as [|q qs IH]; intros s k A; cbn [handle_all]; [exact A|].
  pose proof (handle_agree s q k A) as B. destruct (handle s q) as [s1 a]. cbn [fst snd] in B. specialize (IH s1 _ B).
  destruct (handle_all s1 qs) as [s2 l]. exact IH.
Qed.
Lemma handle_length s q : length (fst (handle s q)) = length s.
Proof.
  destruct q as [lba buf outs|lba len idx bad|j]; cbn; [|reflexivity|].
  - generalize 0%nat. induction s as [|d s IH]; intros n; cbn; [reflexivity|]. now rewrite IH.
  - revert j. induction s as [|d s IH]; intros [|j]; cbn; try reflexivity. now rewrite IH.
Qed.
Lemma run_length qs : forall s, length (fst (handle_all s qs)) = length s.
Proof.
  induction qs as [|q qs IH]; intros s; cbn [handle_all]; [reflexivity|]. pose proof (handle_length s q) as H. destruct (handle s q) as [s1 a]. specialize (IH s1).
  destruct (handle_all s1 qs) as [s2 l]. cbn in *. congruence.
Qed.
End Proofs.

(** C95: whatever disks fail and however they are taken out of service, a read that succeeds returns, for every block whose last write succeeded, what that
    write wrote; and a read fails only if every disk in service fails to read, or none is left *)
Theorem C95_reads {D} (s0 : list (disk D)) qs lba len idx bad : s0 <> [] ->
  let (s, h) := handle_all s0 qs in
  match read_at s lba len idx bad with
  | inl buf => length buf = len /\ forall k x, (k < len)%nat -> known (lba + Z.of_nat k) h = Some x -> nth_error buf k = Some x
  | inr EIO => (exists i, up s i) /\ forall i, up s i -> bad i = true
  | inr ENXIO => forall i, ~ up s i
  end.
Proof.
  intros N. pose proof (run_agree qs s0 (fun _ => None) ltac:(intros l x i d H; discriminate)) as A. pose proof (run_length qs s0) as Ln. unfold known.
  destruct (handle_all s0 qs) as [s h]. cbn [fst snd] in A, Ln.
  assert (Ns : leaves s <> []). { destruct s; [|discriminate]. destruct s0; [congruence|discriminate]. }
  unfold read_at. set (dk := fun i : nat => _).
  pose proof (C51_mirror_reads ENXIO (leaves s) idx dk Ns) as C. destruct (mirror_read ENXIO (leaves s) idx dk) as [res tried]. cbn [fst].
  destruct C as (_ & _ & _ & C). destruct res as [buf|e].
  - destruct C as (i & H & E). apply holds_up in H. destruct H as (d & Ei & P). unfold dk in E. destruct (bad i); [discriminate|]. rewrite Ei in E. injection E as <-.
    unfold get_range. rewrite map_length, seq_length. split; [reflexivity|]. intros k x K H. specialize (A _ _ _ _ H Ei P).
    rewrite nth_error_map. rewrite (nth_error_nth' _ 0%nat) by (rewrite seq_length; exact K). rewrite seq_nth by exact K. cbn. now rewrite A.
  - destruct C as (C1 & C2). assert (X : forall i, up s i -> bad i = true).
    { intros i U. pose proof U as (d & Ei & P). apply holds_up in U. destruct (C1 i U) as (_ & e' & E). unfold dk in E. destruct (bad i); [reflexivity|]. now rewrite Ei in E. }
    assert (Y : e = EIO /\ (exists i, up s i) \/ e = ENXIO /\ forall i, ~ up s i).
    { destruct C2 as [(i & H & E)|(H & ->)].
      - left. unfold dk in E. split; [|exists i; now apply holds_up]. destruct (bad i); [congruence|]. destruct (nth_error s i); congruence.
      - right. split; [reflexivity|]. intros i U. apply holds_up in U. exact (H i U). }
    destruct Y as [(-> & Y)|(-> & Y)]; [|exact Y]. split; assumption.
Qed.
(** C95: a write that succeeds is on every disk in service, and one that fails was failed by one of them *)
Theorem C95_writes {D} (s : list (disk D)) lba buf outs :
  let (s', ok) := write_at s lba buf outs in
  if ok then forall i d, up s i -> nth_error s' i = Some d -> get_range lba (length buf) (d_blk d) = buf
  else exists i, up s i /\ outs i <> Stored.
Proof.
  unfold write_at. destruct (all_stored 0 outs s) eqn:A.
  - rewrite stored_nth in A. intros i d U E. rewrite write_nth in E. destruct U as (d0 & E0 & P). rewrite E0 in E. injection E as <-. cbn [Nat.add] in *.
    unfold write_disk. rewrite P. cbn. specialize (A i ltac:(exists d0; auto)). cbn in A. rewrite A.
    unfold get_range. apply list_ext. intros k. rewrite nth_error_map. destruct (Nat.lt_ge_cases k (length buf)) as [K|K].
    + rewrite (nth_error_nth' (seq 0 (length buf)) 0%nat) by (rewrite seq_length; exact K). rewrite seq_nth by exact K. cbn [option_map Nat.add].
      destruct (nth_error buf k) as [x|] eqn:X; [|apply nth_error_None in X; lia]. f_equal. apply nth_error_put.
      * unfold in_write. apply andb_true_iff. rewrite Z.leb_le, Z.ltb_lt. unfold zlen. lia.
      * replace (Z.to_nat (lba + Z.of_nat k - lba)) with k by lia. exact X.
    + rewrite (proj2 (nth_error_None buf k)) by lia. rewrite (proj2 (nth_error_None (seq 0 (length buf)) k)) by (rewrite seq_length; lia). reflexivity.
  - assert (H : forall k, all_stored k outs s = false -> exists i, up s i /\ outs (k + i)%nat <> Stored).
    { clear A. induction s as [|d s IH]; intros k A; [discriminate|]. cbn in A. apply andb_false_iff in A. destruct A as [A|A].
      - exists 0%nat. apply orb_false_iff in A. destruct A as [A B]. apply negb_false_iff in A. rewrite Nat.add_0_r. split; [exists d; split; [reflexivity|now apply leaf_present_iff]|]. destruct (outs k); congruence.
      - destruct (IH _ A) as (i & (d' & E & P) & H). exists (S i). split; [now exists d'|]. now rewrite Nat.add_succ_r. }
    exact (H 0%nat A).
Qed.
Definition two_disks : list (disk Z) := [Disk LPresent (fun _ => 0); Disk LPresent (fun _ => 0)].
Definition well (_ : nat) : outcome Z := Stored.
Definition second_fails (i : nat) : outcome Z := match i with S _ => Lost (fun _ => 0) | O => Stored end.
Example C95_ex : let '(s, h) := handle_all two_disks [Write 10 [5; 6] well; Write 20 [7] second_fails; Fault 0] in
  map snd h = [Written true; Written false; Done] /\ known 11 h = Some 6 /\ known 20 h = None /\ read_at s 10 2 0 (fun _ => false) = inl [5; 6].
Proof. vm_compute. auto. Qed.

(** C95: a write succeeds though no disk is left to hold the data *)
Theorem C95_no_disk_refuted : exists qs s h, handle_all two_disks qs = (s, h) /\ In (Write 10 [5] well, Written true) h /\ known 10 h = Some 5 /\
  read_at s 10 1 0 (fun _ => false) = inr ENXIO.
Proof. exists [Fault 0; Fault 1; Write 10 [5] well]. eexists. eexists. split; [reflexivity|]. split; [right; right; left; reflexivity|]. vm_compute. auto. Qed.
(** C95: after a failed write two reads without an error, and nothing in between, give different data *)
Theorem C95_reads_agree_refuted : exists qs s h, handle_all two_disks qs = (s, h) /\
  read_at s 20 1 0 (fun _ => false) = inl [7] /\ read_at s 20 1 1 (fun _ => false) = inl [0].
Proof. exists [Write 20 [7] second_fails]. eexists. eexists. split; [reflexivity|]. vm_compute. auto. Qed.

(** * C96 *)

Lemma put_range_in {D} lba buf (f : Z -> D) l : lba <= l < lba + zlen buf -> put_range lba buf f l = nth (Z.to_nat (l - lba)) buf (f l).
Proof. intros H. unfold put_range. replace ((lba <=? l) && (l <? lba + zlen buf)) with true; [reflexivity|]. symmetry. apply andb_true_iff. rewrite Z.leb_le, Z.ltb_lt. lia. Qed.
Lemma put_range_out {D} lba buf (f : Z -> D) l : ~ lba <= l < lba + zlen buf -> put_range lba buf f l = f l.
Proof. intros H. unfold put_range. replace ((lba <=? l) && (l <? lba + zlen buf)) with false; [reflexivity|]. symmetry. apply andb_false_iff. rewrite Z.leb_gt, Z.ltb_ge. lia. Qed.
Lemma get_range_len {D} lba n (f : Z -> D) : zlen (get_range lba n f) = Z.of_nat n.
Proof. unfold zlen, get_range. now rewrite map_length, seq_length. Qed.
Lemma put_get {D} lba n (f g : Z -> D) l : lba <= l < lba + Z.of_nat n -> put_range lba (get_range lba n g) f l = g l.
Proof.
  intros H. rewrite put_range_in by (rewrite get_range_len; exact H). unfold get_range. rewrite (nth_indep _ _ (g lba)) by (rewrite map_length, seq_length; lia).
  apply nth_error_nth. rewrite nth_error_map. rewrite (nth_error_nth' _ 0%nat) by (rewrite seq_length; lia). rewrite seq_nth by lia. cbn. do 2 f_equal. lia.
Qed.

(** [s'] is [s] but for blocks [lo..hi) of the disks being rebuilt, which are [g]'s *)
Definition rebuilt {D} (g : Z -> D) (lo hi : Z) (s s' : list (disk D)) : Prop :=
  leaves s' = leaves s /\ forall i d d', nth_error s i = Some d -> nth_error s' i = Some d' ->
    forall l, d_blk d' l = if leaf_rebuilding (d_leaf d) && (lo <=? l) && (l <? hi) then g l else d_blk d l.

Lemma indices_in {D} p (s : list (disk D)) i : In i (indices p s) -> exists d, nth_error s i = Some d /\ p (d_leaf d) = true.
Proof. unfold indices. rewrite filter_In. intros [_ H]. destruct (nth_error s i) as [d|]; [eauto|discriminate]. Qed.

Lemma repair_loop_ok {D} bs readers readerr (g : Z -> D) lo : 0 < bs -> readers <> [] -> forall fuel start end_ idx s s0, lo <= start -> Z.max 0 (end_ - start) < Z.of_nat fuel ->
  rebuilt g lo (Z.min start (Z.max lo end_)) s0 s -> (forall i, In i readers -> exists d, nth_error s0 i = Some d /\ d_leaf d = LPresent /\ forall l, lo <= l < end_ -> d_blk d l = g l) ->
  exists s' ok mid, repair_loop bs readers readerr fuel start end_ start idx s = Some (s', ok) /\ lo <= mid <= Z.max lo end_ /\ rebuilt g lo mid s0 s' /\
    if ok then mid = Z.max lo end_ else exists i l, In i readers /\ lo <= l < end_ /\ readerr i l = true.
Proof.
  intros B N. induction fuel as [|fuel IH]; intros start end_ idx s s0 L F R H; [|cbn [repair_loop]].
  - lia.
  - destruct (Z.ltb_spec start end_) as [Lt|Ge].
    + destruct readers as [|r0 rs]; [congruence|]. set (readers := r0 :: rs) in *.
      set (r := nth (Z.to_nat (idx mod zlen readers)) readers 0%nat).
      assert (Ir : In r readers). { apply nth_In. pose proof (Z.mod_pos_bound idx (zlen readers)). assert (0 < zlen readers) by (unfold zlen, readers; cbn; lia). unfold zlen in *. lia. }
      destruct (readerr r start) eqn:Er.
      { exists s, false, (Z.min start (Z.max lo end_)). split; [reflexivity|]. split; [lia|]. split; [exact R|]. exists r, start. split; [exact Ir|]. split; [lia|exact Er]. }
      destruct (H r Ir) as (d & E & P & G). destruct R as (R1 & R2).
      assert (E' : exists d', nth_error s r = Some d').
      { assert (X : nth_error (leaves s) r = nth_error (leaves s0) r) by now rewrite R1. unfold leaves in X. rewrite !nth_error_map, E in X. destruct (nth_error s r); [eauto|discriminate]. }
      destruct E' as (d' & E'). rewrite E'. pose proof (R2 r d d' E E') as Rd. rewrite P in Rd. cbn in Rd.
      set (n := Z.to_nat (Z.min bs (end_ - start))). set (buf := get_range start n (d_blk d')).
      apply (IH (start + bs) end_ (idx + 1) (map (write_rebuilding start buf) s) s0); [lia|lia| |exact H].
      split.
      * rewrite <- R1. unfold leaves. rewrite map_map. apply map_ext. intros a. unfold write_rebuilding. destruct (leaf_rebuilding (d_leaf a)); reflexivity.
      * intros i e e' Ei Ei' l. rewrite nth_error_map in Ei'. destruct (nth_error s i) as [e0|] eqn:Es; [|discriminate]. injection Ei' as <-.
        specialize (R2 i e e0 Ei Es l).
        assert (Le : d_leaf e0 = d_leaf e). { assert (X : nth_error (leaves s) i = nth_error (leaves s0) i) by now rewrite R1. unfold leaves in X. rewrite !nth_error_map, Ei, Es in X. cbn in X. congruence. }
        unfold write_rebuilding. rewrite Le. destruct (leaf_rebuilding (d_leaf e)) eqn:Q; [|exact R2]. cbn [d_blk andb] in *.
        assert (Zn : Z.of_nat n = Z.min bs (end_ - start)) by (unfold n; lia).
        destruct (Z.le_gt_cases start l) as [S1|S1]; [destruct (Z.lt_ge_cases l (start + Z.of_nat n)) as [S2|S2]|].
        -- unfold buf. rewrite put_get by lia. rewrite Rd. rewrite G by lia. replace ((lo <=? l) && (l <? Z.min (start + bs) (Z.max lo end_))) with true; [reflexivity|].
           symmetry. apply andb_true_iff. rewrite Z.leb_le, Z.ltb_lt. lia.
        -- rewrite put_range_out by (unfold buf; rewrite get_range_len; lia). rewrite R2.
           replace (l <? Z.min start (Z.max lo end_)) with false by (symmetry; rewrite Z.ltb_ge; lia). replace (l <? Z.min (start + bs) (Z.max lo end_)) with false by (symmetry; rewrite Z.ltb_ge; lia). reflexivity.
        -- rewrite put_range_out by (unfold buf; rewrite get_range_len; lia). rewrite R2.
           replace (l <? Z.min start (Z.max lo end_)) with true by (symmetry; rewrite Z.ltb_lt; lia). replace (l <? Z.min (start + bs) (Z.max lo end_)) with true by (symmetry; rewrite Z.ltb_lt; lia). reflexivity.
    + exists s, true, (Z.min start (Z.max lo end_)). split; [reflexivity|]. split; [lia|]. split; [exact R|lia].
Qed.

(** C96: a repair of a zone that reports success has made the disks being rebuilt equal to those in service on all blocks of the zone; one that does not was
    stopped by a failing read; either way every block of the zone on a disk being rebuilt has its old contents or the right ones, and nothing else has
    changed.  For every size of the buffers and of the zone.  It panics only if no disk is in service. *)
Theorem C96_repair_zone_partial {D} bs (s : list (disk D)) lo hi idx readerr (g : Z -> D) : 0 < bs -> lo <= hi ->
  (exists i, up s i) -> (forall i d, nth_error s i = Some d -> d_leaf d = LPresent -> forall l, lo <= l < hi -> d_blk d l = g l) ->
  exists s' ok, repair_zone bs s lo hi idx readerr = Some (s', ok) /\ leaves s' = leaves s /\
    (ok = false -> exists i l, up s i /\ lo <= l < hi /\ readerr i l = true) /\
    forall i d d', nth_error s i = Some d -> nth_error s' i = Some d' ->
      (ok = true -> d_leaf d = LRebuilding -> forall l, lo <= l < hi -> d_blk d' l = g l) /\
      (forall l, d_blk d' l = d_blk d l \/ d_leaf d = LRebuilding /\ lo <= l < hi /\ d_blk d' l = g l).
Proof.
  intros B L (i & d & Ei & P) H. unfold repair_zone.
  assert (N : indices leaf_present s <> []).
  { intros X. assert (I : In i (indices leaf_present s)); [|now rewrite X in I]. unfold indices. rewrite filter_In. split; [apply in_seq; split; [lia|]; cbn; apply nth_error_Some; congruence|]. now rewrite Ei, P. }
  destruct (indices leaf_present s) as [|r rs] eqn:Ix; [congruence|]. clear N.
  destruct (existsb _ s) eqn:Ex.
  - destruct (repair_loop_ok bs (r :: rs) readerr g lo B ltac:(discriminate) (Z.to_nat (hi - lo) + 1) lo hi idx s s ltac:(lia) ltac:(lia)) as (s' & ok & mid & E & M & (R1 & R2) & Ok).
    + split; [reflexivity|]. intros j e e' Ej Ej' l. rewrite Ej in Ej'. injection Ej' as <-.
      replace (l <? Z.min lo (Z.max lo hi)) with (l <? lo) by (f_equal; lia). destruct (leaf_rebuilding (d_leaf e)); cbn; [|reflexivity].
      destruct (Z.leb_spec lo l), (Z.ltb_spec l lo); try reflexivity. lia.
    + intros j J. rewrite <- Ix in J. destruct (indices_in _ _ _ J) as (e & Ej & Q). apply leaf_present_iff in Q. exists e. split; [exact Ej|]. split; [exact Q|]. intros l Hl. exact (H j e Ej Q l Hl).
    + exists s', ok. split; [exact E|]. split; [exact R1|]. split.
      { intros ->. destruct Ok as (j & l & J & Hl & Er). rewrite <- Ix in J. destruct (indices_in _ _ _ J) as (e & Ej & Q). apply leaf_present_iff in Q. exists j, l. split; [exists e; auto|auto]. }
      intros j e e' Ej Ej'. specialize (R2 j e e' Ej Ej'). replace (Z.max lo hi) with hi in M, Ok by lia. split.
      * intros -> Q l Hl. rewrite R2, Q, Ok. cbn. replace ((lo <=? l) && (l <? hi)) with true; [reflexivity|]. symmetry. apply andb_true_iff. rewrite Z.leb_le, Z.ltb_lt. lia.
      * intros l. rewrite R2. destruct (leaf_rebuilding (d_leaf e)) eqn:Q; [|left; reflexivity]. cbn. destruct ((lo <=? l) && (l <? mid)) eqn:In; [|left; reflexivity].
        right. apply andb_true_iff in In. rewrite Z.leb_le, Z.ltb_lt in In. split; [destruct (d_leaf e); cbn in Q; congruence|]. split; [lia|reflexivity].
  - exists s, true. split; [reflexivity|]. split; [reflexivity|]. split; [discriminate|]. intros j e e' Ej Ej'. rewrite Ej in Ej'. injection Ej' as <-. split; [|auto].
    intros _ Q. exfalso. assert (X : existsb (fun d => leaf_rebuilding (d_leaf d)) s = true); [|congruence]. apply existsb_exists. exists e. split; [now apply nth_error_In in Ej|]. now rewrite Q.
Qed.
Definition three_disks : list (disk Z) := [Disk LPresent (fun l => l); Disk LRebuilding (fun _ => -1); Disk LPresent (fun l => l)].
Example C96_ex : match repair_zone 3 three_disks 10 18 1 (fun _ _ => false) with
  | Some ([_; d; _], true) => map (d_blk d) [9; 10; 12; 13; 17; 18] = [-1; 10; 12; 13; 17; -1] | _ => False end.
Proof. vm_compute. reflexivity. Qed.
(** C96: one unreadable block on one disk makes the repair fail, though the other disk in service could be read *)
Theorem C96_read_error_refuted : exists (s : list (disk Z)) lo hi idx bad s', (forall l, lo <= l < hi -> exists i, up s i /\ bad i l = false) /\
  repair_zone 64 s lo hi idx bad = Some (s', false) /\ exists d, nth_error s' 1 = Some d /\ d_blk d lo = -1.
Proof.
  exists three_disks, 0, 100, 0, (fun i l => Nat.eqb i 0 && (l =? 0)), three_disks. split.
  - intros l _. exists 2%nat. split; [|reflexivity]. now exists (Disk LPresent (fun l => l)).
  - split; [reflexivity|]. exists (Disk LRebuilding (fun _ => -1)). auto.
Qed.

Print Assumptions C95_reads.
Print Assumptions C95_writes.
Print Assumptions C95_no_disk_refuted.
Print Assumptions C95_reads_agree_refuted.
Print Assumptions C96_repair_zone_partial.
Print Assumptions C96_read_error_refuted.
