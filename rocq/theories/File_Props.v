(** C34 file contents, C35 allocated bytes, C36 seeking, C58 blobs of a file. *)
From Verif Require Import Common ZMap File_Model File_Proofs.
From Coq Require Import Permutation.

(** * Specification *)

(** what a client does with an open file; [Sync] is a transaction boundary, at which large extents are written out *)
Inductive op :=
| Write (offset : Z) (data : list Z)
| Read (offset size : Z)
| Truncate (size : Z)
| Deallocate (offset len : Z)
| Sync.
Inductive out := Count (n : Z) | Bytes (l : list Z) | Done.

Definition legal (o : op) : Prop :=
  match o with
  | Write off _ => 0 <= off
  | Read off n => 0 <= off /\ 0 <= n
  | Truncate n => 0 <= n
  | Deallocate off len => 0 <= off /\ 0 <= len
  | Sync => True
  end.

(** an ideal file: a size and a byte at every offset *)
Record ideal := Ideal { i_size : Z; i_byte : Z -> Z }.
Definition empty : ideal := Ideal 0 (fun _ => 0).
Definition ideal_step (f : ideal) (o : op) : ideal * out :=
  match o with
  | Write off data =>
      (Ideal (Z.max (i_size f) (off + zlen data))
             (fun i => if (off <=? i) && (i <? off + zlen data) then nth (Z.to_nat (i - off)) data 0 else i_byte f i), Count (zlen data))
  | Read off n => (f, Bytes (map (i_byte f) (zrange off (Z.min (off + n) (i_size f)))))
  | Truncate n => (Ideal n (fun i => if i <? n then i_byte f i else 0), Done)
  | Deallocate off len => (Ideal (i_size f) (fun i => if (off <=? i) && (i <? off + len) then 0 else i_byte f i), Done)
  | Sync => (f, Done)
  end.
Fixpoint ideal_run (f : ideal) (os : list op) : ideal * list out :=
  match os with
  | [] => (f, [])
  | o :: r => let (f1, x) := ideal_step f o in let (f2, xs) := ideal_run f1 r in (f2, x :: xs)
  end.

(** the same with the file system; a new file has no extents (fs.rs:616-676) *)
Definition new_file : file := File (Ds [] [] 0 []) 0 0.
Definition step (rs : Z) (f : file) (o : op) : option (file * out) :=
  match o with
  | Write off data => match write rs f off data with Some (f', n) => Some (f', Count n) | None => None end
  | Read off n => match read rs f off n with Some sg => Some (f, Bytes (concat sg)) | None => None end
  | Truncate n => match set_size rs f n with Some f' => Some (f', Done) | None => None end
  | Deallocate off len => match deallocate rs f off len with Some f' => Some (f', Done) | None => None end
  | Sync => Some (File (ds_flush (f_ds f)) (f_size f) (f_bytes f), Done)
  end.
Fixpoint run (rs : Z) (f : file) (os : list op) : option (file * list out) :=
  match os with
  | [] => Some (f, [])
  | o :: r => match step rs f o with
              | None => None
              | Some (f1, x) => match run rs f1 r with Some (f2, xs) => Some (f2, x :: xs) | None => None end
              end
  end.
(** [f] is a file after some history *)
Definition reachable (rs : Z) (f : file) : Prop := exists os xs, Forall legal os /\ run rs new_file os = Some (f, xs).

(** the offset lies in a stored extent *)
Definition is_data (f : file) (i : Z) : Prop := exists k e, In (k, e) (d_ext (f_ds f)) /\ k <= i < k + ext_len e.
(** ids of the blobs the file's extents refer to *)
Definition referenced (f : file) : list Z :=
  flat_map (fun p => match snd p with Blob r _ => [r] | Inline _ => [] end) (d_ext (f_ds f)).

(** * Connection *)
Section Connect.
Context (rs : Z).
Context (RS : 0 < rs).

Definition agrees (f : file) (g : ideal) : Prop :=
  fgood rs f /\ f_size f = i_size g /\ forall i, cont rs (R (f_ds f)) i = i_byte g i.

Lemma nth_byte data i : 0 <= i < zlen data -> nth (Z.to_nat i) data 0 = byte_at data i.
Proof.
  intros H. unfold byte_at, lget. destruct (Z.ltb_spec i 0); [lia|]. unfold zlen in H.
  rewrite (nth_error_nth' data 0) by lia. reflexivity.
Qed.

Lemma step_ok f g o : agrees f g -> legal o -> exists f', step rs f o = Some (f', snd (ideal_step g o)) /\ agrees f' (fst (ideal_step g o)).
Proof.
  intros (G & S & C) L. destruct o as [off data|off n|n|off len|]; cbn [step ideal_step fst snd legal] in *.
  - destruct (write_spec rs RS f off data G L) as (f' & -> & G' & S' & C'). exists f'. split; [reflexivity|]. split; [exact G'|].
    cbn [i_size i_byte]. split; [lia|]. intros i. rewrite C', C. destruct ((off <=? i) && (i <? off + zlen data)) eqn:E; [|reflexivity].
    symmetry. apply nth_byte. lia.
  - destruct (read_spec rs RS f off n G (proj1 L) (proj2 L)) as (sg & -> & E). exists f. split; [|split; [exact G|]; split; [exact S|exact C]].
    rewrite E, S. do 3 f_equal. apply map_ext. exact C.
  - destruct (set_size_spec rs RS f n G L) as (f' & -> & G' & S' & C'). exists f'. split; [reflexivity|]. split; [exact G'|].
    cbn [i_size i_byte]. split; [exact S'|]. intros i. destruct (Z.ltb_spec i n) as [H|H]; [rewrite C' by exact H; apply C|].
    apply (cont_past rs RS); [exact G'|lia].
  - destruct (deallocate_spec rs RS f off len G (proj1 L) (proj2 L)) as (f' & -> & G' & S' & C'). exists f'. split; [reflexivity|]. split; [exact G'|].
    cbn [i_size i_byte]. split; [lia|]. intros i. destruct (Z_lt_dec i (f_size f)) as [H|H]; [rewrite C', C by exact H; reflexivity|].
    rewrite (cont_past rs RS) by (auto; lia). rewrite <- C, (cont_past rs RS) by (auto; lia). now destruct ((off <=? i) && (i <? off + len)).
  - destruct (flush_spec rs f G) as [G' E]. eexists. split; [reflexivity|]. split; [exact G'|]. cbn [f_ds f_size]. rewrite E. auto.
Qed.
Lemma run_ok : forall os f g, agrees f g -> Forall legal os -> exists f', run rs f os = Some (f', snd (ideal_run g os)) /\ agrees f' (fst (ideal_run g os)).
Proof.
  induction os as [|o os IH]; intros f g A L; [exists f; auto|]. inversion L; subst. cbn [run ideal_run].
  destruct (step_ok f g o A ltac:(assumption)) as (f1 & -> & A1). destruct (ideal_step g o) as [g1 x]. cbn [fst snd] in *.
  destruct (IH f1 g1 A1 ltac:(assumption)) as (f2 & -> & A2). destruct (ideal_run g1 os) as [g2 xs]. exists f2. auto.
Qed.
Lemma new_ok : agrees new_file empty.
Proof.
  split; [|split; [reflexivity|]]; [|intros i; reflexivity].
  split; [|split; [cbn; lia|reflexivity]]. cbn. split; [|split; [apply zm_ok_nil|constructor]].
  split; [apply zm_ok_nil|]. split; [apply zm_ok_nil|]. split; [reflexivity|]. split; [constructor|]. split; [constructor|]. split; [cbn; lia|]. reflexivity.
Qed.
Lemma reachable_good f : reachable rs f -> fgood rs f.
Proof.
  intros (os & xs & L & E). destruct (run_ok os _ _ new_ok L) as (f' & E' & A). rewrite E in E'. injection E' as <- _. apply A.
Qed.
End Connect.

(** * Theorems *)

(** Every read returns what an ideal file would return, no operation panics, every write reports all its bytes written. *)
Theorem C34_file_contents rs os : 0 < rs -> Forall legal os ->
  exists f, run rs new_file os = Some (f, snd (ideal_run empty os)) /\ f_size f = i_size (fst (ideal_run empty os)).
Proof. intros RS L. destruct (run_ok rs RS os _ _ (new_ok rs) L) as (f & E & _ & S & _). eauto. Qed.

(** A write of no bytes should change nothing, but beyond the end of the file it makes the file longer. *)
Theorem C34_empty_write_refuted : exists rs f f', 0 < rs /\ reachable rs f /\ write rs f 10 [] = Some (f', 0) /\ f_size f' <> f_size f.
Proof.
  exists 4096, new_file, (File (Ds [(0, Inline (zrepeat 0 10))] [] 0 []) 10 10). split; [lia|]. split; [exists [], []; split; [constructor|reflexivity]|].
  split; [vm_compute; reflexivity|]. cbn. lia.
Qed.

Theorem C35_bytes_exact rs f : 0 < rs -> reachable rs f ->
  f_bytes f = fold_right (fun p a => ext_len (snd p) + a) 0 (d_ext (f_ds f)).
Proof.
  intros RS H. destruct (reachable_good rs RS f H) as ((O & _) & _ & ->).   unfold R, total. destruct O as (_ & _ & _ & F & _). clear H. induction F as [|[k e] l Sp F IH]; [reflexivity|]. cbn [map fold_right fst snd].
  cbn [snd] in Sp. rewrite IH, (ext_len_res _ _ Sp). reflexivity.
Qed.

(** Stored extents never overlap, start on record boundaries, are not empty, not longer than a record, and end within the file. *)
Theorem C35_extents_in_file rs f : 0 < rs -> reachable rs f ->
  NoDup (map fst (d_ext (f_ds f))) /\
  forall k e, In (k, e) (d_ext (f_ds f)) -> 0 <= k /\ (rs | k) /\ 0 < ext_len e <= rs /\ k + ext_len e <= f_size f.
Proof.
  intros RS H. pose proof (reachable_good rs RS f H) as G. split.
  - destruct G as (((O & _) & _) & _). apply zm_ok_nodup. exact O.
  - intros k e I. pose proof (ext_facts rs f G) as F. rewrite Forall_forall in F. specialize (F _ I). cbn [fst snd] in F. destruct F as (A & B & C & D).
    split; [exact A|]. split; [apply Z.mod_divide; lia|]. auto.
Qed.

Theorem C36_seek_data rs f offset : 0 < rs -> reachable rs f -> 0 <= offset ->
  match lseek rs f offset SeekData with
  | Some x => offset <= x /\ is_data f x /\ forall y, offset <= y < x -> ~ is_data f y
  | None => forall y, offset <= y -> ~ is_data f y
  end.
Proof.
  intros RS H L. pose proof (reachable_good rs RS f H) as G. unfold lseek. pose proof (ext_facts rs f G) as F.
  destruct (Z.ltb_spec (f_size f) offset).
  { intros y Hy (k & e & I & Hk). rewrite Forall_forall in F. specialize (F _ I). cbn [fst snd] in F. lia. }
  pose proof (lseek_data_loop (ds_range (f_ds f) (offset - offset mod rs) None) offset) as D.
  destruct (lseek_loop SeekData offset None _) as [x|].
  - destruct D as (A & B & C).
    + apply zm_ok_filter. destruct G as (((O & _) & _) & _). exact O.
    + apply Forall_forall. intros p I. apply filter_In in I. rewrite Forall_forall in F. specialize (F _ (proj1 I)). lia.
    + split; [exact A|]. split; [apply (inside_range rs RS f offset x G A); exact B|]. intros y Hy Dy. apply (C y Hy). apply (inside_range rs RS f offset y G); [lia|exact Dy].
  - intros y Hy Dy. eapply D; [| |exact Hy|].
    + apply zm_ok_filter. destruct G as (((O & _) & _) & _). exact O.
    + apply Forall_forall. intros p I. apply filter_In in I. rewrite Forall_forall in F. specialize (F _ (proj1 I)). lia.
    + apply (inside_range rs RS f offset y G); [lia|exact Dy].
Qed.

(** Full claim: the result is the smallest offset at or after the given one that is not data.  Proved where data follow;
    with no data at or after the offset the result is the end of the file instead, see [C36_seek_hole_refuted]. *)
Theorem C36_seek_hole_partial rs f offset : 0 < rs -> reachable rs f -> 0 <= offset <= f_size f ->
  exists x, lseek rs f offset SeekHole = Some x /\
    ((exists y, offset <= y /\ is_data f y) -> offset <= x /\ ~ is_data f x /\ forall y, offset <= y < x -> is_data f y) /\
    ((forall y, offset <= y -> ~ is_data f y) -> x = f_size f).
Proof.
  intros RS H L. pose proof (reachable_good rs RS f H) as G. unfold lseek. pose proof (ext_facts rs f G) as F.
  destruct (Z.ltb_spec (f_size f) offset); [lia|].
  destruct (lseek_hole_loop (ds_range (f_ds f) (offset - offset mod rs) None) offset (f_size f)) as (x & E & D).
  - apply zm_ok_filter. destruct G as (((O & _) & _) & _). exact O.
  - apply Forall_forall. intros p I. apply filter_In in I. rewrite Forall_forall in F. specialize (F _ (proj1 I)). lia.
  - assert (Eq : forall y, offset <= y -> inside (ds_range (f_ds f) (offset - offset mod rs) None) y <-> is_data f y) by (intros; apply (inside_range rs RS f); assumption).
    exists x. split; [exact E|]. destruct D as [[A ->]|((y & Y1 & Y2) & B & C & D)].
    + split; [|reflexivity]. intros (y & Hy & Dy). exfalso. apply (A y Hy), Eq; assumption.
    + split.
      * intros _. split; [exact B|]. split; [rewrite <- Eq by exact B; exact C|]. intros z Hz. apply Eq; [lia|]. apply D. exact Hz.
      * intros N. exfalso. apply (N y Y1), Eq; assumption.
Qed.
Theorem C36_seek_hole_refuted : exists rs f offset x y, 0 < rs /\ reachable rs f /\ 0 <= offset <= f_size f /\
  lseek rs f offset SeekHole = Some x /\ offset <= y < x /\ ~ is_data f y.
Proof.
  exists 4096, (File (Ds [(0, Inline [7])] [] 0 []) 8192 1), 6000, 8192, 6000. split; [lia|].
  split. { exists [Write 0 [7]; Truncate 8192], [Count 1; Done]. split; [repeat constructor; cbn; lia|vm_compute; reflexivity]. }
  split; [cbn; lia|]. split; [vm_compute; reflexivity|]. split; [lia|]. intros (k & e & [E|[]] & H). injection E as <- <-. unfold ext_len, zlen in H. cbn in H. lia.
Qed.

(** Whatever lies outside the stored extents reads as zero, so no byte of the file is missed by seeking for data. *)
Theorem C36_holes_read_zero rs f i : 0 < rs -> reachable rs f -> 0 <= i < f_size f -> ~ is_data f i ->
  exists sg, read rs f i 1 = Some sg /\ concat sg = [0].
Proof.
  intros RS H L N. pose proof (reachable_good rs RS f H) as G. destruct (read_spec rs RS f i 1 G) as (sg & E & C); [lia|lia|]. exists sg. split; [exact E|].
  rewrite C. rewrite zrange_cons, zrange_empty by lia. cbn [map]. f_equal. destruct (Z.eq_dec (cont rs (R (f_ds f)) i) 0) as [Z0|Z0]; [exact Z0|].
  exfalso. apply N. exact (cont_inside rs RS f i G (proj1 L) Z0).
Qed.

(** Every blob ever written for the file is referred to by exactly one extent and still stored, or was deleted exactly once. *)
Theorem C58_no_blob_leaked rs f : 0 < rs -> reachable rs f ->
  Permutation (referenced f) (map fst (d_blobs (f_ds f))) /\ NoDup (referenced f ++ d_freed (f_ds f)) /\
  forall r, In r (referenced f ++ d_freed (f_ds f)) <-> 0 <= r < d_next (f_ds f).
Proof.
  intros RS H. pose proof (reachable_good rs RS f H) as (((O1 & O2 & P & F1 & _ & N0 & A) & _) & _). cbn [flat_map] in P. rewrite app_nil_r in P.
  change (rids (d_ext (f_ds f))) with (referenced f) in P. split; [exact P|].
  assert (Q : Permutation (referenced f ++ d_freed (f_ds f)) (zrange 0 (d_next (f_ds f)))) by (rewrite Permutation_app_comm, P; exact A).
  split; [eapply Permutation_NoDup; [symmetry; exact Q|apply NoDup_zrange]|]. intros r. rewrite <- in_zrange. split; apply Permutation_in; [exact Q|symmetry; exact Q].
Qed.

(** * Examples *)
Definition ex_ops : list op :=
  [Write 1000 (zrepeat 7 5000); Sync; Read 0 2000; Write 5500 (zrange 1 4000); Deallocate 2000 3500; Sync; Truncate 12000; Read 4000 4000;
   Truncate 5600; Write 9000 [1; 2; 3]; Read 5590 3420].
Example ex_legal : Forall legal ex_ops.
Proof. repeat constructor; cbn; lia. Qed.
Definition ex_file : file := match run 4096 new_file ex_ops with Some (f, _) => f | None => new_file end.
Example ex_reachable : reachable 4096 ex_file.
Proof.
  destruct (C34_file_contents 4096 ex_ops ltac:(lia) ex_legal) as (f & E & _).
  exists ex_ops, (snd (ideal_run empty ex_ops)). split; [apply ex_legal|]. unfold ex_file. rewrite E. reflexivity.
Qed.
Example ex_nontrivial :
  (f_size ex_file, f_bytes ex_file, map (fun p => (fst p, ext_len (snd p))) (d_ext (f_ds ex_file)), d_next (f_ds ex_file), d_freed (f_ds ex_file),
   lseek 4096 ex_file 3000 SeekData, lseek 4096 ex_file 3000 SeekHole)
  = (9003, 4315, [(0, 2000); (4096, 1504); (8192, 811)], 5, [1; 0; 3; 4], Some 4096, Some 3000).
Proof. vm_compute. reflexivity. Qed.
Example ex_seek_hole : 0 <= 1500 <= f_size ex_file /\ (exists y, 1500 <= y /\ is_data ex_file y) /\ lseek 4096 ex_file 1500 SeekHole = Some 2000.
Proof.
  split; [vm_compute; split; discriminate|]. split; [|vm_compute; reflexivity].
  exists 1500. split; [lia|]. pose proof (C36_seek_data 4096 ex_file 1500 ltac:(lia) ex_reachable ltac:(lia)) as H.
  replace (lseek 4096 ex_file 1500 SeekData) with (Some 1500) in H by (vm_compute; reflexivity). apply H.
Qed.

Print Assumptions C34_file_contents.
Print Assumptions C34_empty_write_refuted.
Print Assumptions C35_bytes_exact.
Print Assumptions C35_extents_in_file.
Print Assumptions C36_seek_data.
Print Assumptions C36_seek_hole_partial.
Print Assumptions C36_seek_hole_refuted.
Print Assumptions C36_holes_read_zero.
Print Assumptions C58_no_blob_leaked.
