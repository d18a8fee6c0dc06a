(** C86: the label written at the end of a transaction, and the cleaner. *)
From Verif Require Import Common ZMap FSM_Model Tree_Model TreeRD_Model Tree_Inv Tree_Proofs Tree_Remove Tree_Range Tree_Flush Tree_Props TreeCZ_Model TreeCZ_Proofs TreeCZ_Conc TreeCZ_Props.
From Coq Require Import Permutation.

(** * Model: one of the two trees of the indirect layer, the end of a transaction, and the cleaner *)

(** How far the end of a transaction has come: database/database.rs 732-769 [sync_transaction_priv], within idml/idml.rs 472-486 [advance_transaction].  The first of the
    two labels is modelled; the second is written from the same record of the forest after another flush. *)
Inductive mode := Idle | Flushed | Synced.
Definition disk (V : Type) : Type := nat * (addr * node V) * (Z * Z).
(** [y_dur]: addresses below it were written before the last [sync_all]. *)
Record sys V := Sys { y_st : st V; y_mode : mode; y_dur : Z; y_label : option (disk V) }.
Arguments Sys {V}. Arguments y_st {V}. Arguments y_mode {V}. Arguments y_dur {V}. Arguments y_label {V}.

Inductive sev V :=
| EOp (o : op V)              (* an operation in the current transaction, by someone who holds it: idml/idml.rs 432-470 [txg] *)
| ECleanOp (o : op V)         (* an insertion or removal by the cleaner: idml/idml.rs 367-456 [move_record] *)
| ECleanMove (e : nat) (k : Z) (* a node moved by the cleaner: tree/tree/mod.rs 2472-2576 *)
| EFlush                      (* idml/idml.rs [flush], of this tree *)
| ESync                       (* idml/idml.rs [sync_all] *)
| ELabel.                     (* idml/idml.rs 490-508 [write_label], and the transaction number goes up *)
Arguments EOp {V}. Arguments ECleanOp {V}. Arguments ECleanMove {V}. Arguments EFlush {V}. Arguments ESync {V}. Arguments ELabel {V}.

Section Sys.
Context {V : Type}.
(** [held]: whether the cleaner holds the transaction while it works.  In the code it does not: cleaner.rs 49-52, the guard is dropped when the future that cleans has
    been made.  The outer option: whether the event can happen; the inner one: [None] is a panic. *)
Definition sstep (lim : limits) (held : bool) (y : sys V) (ev : sev V) : option (option (sys V)) :=
  let s := y_st y in
  let op o := if match o with Insert _ k _ => 0 <=? k | Remove _ => true | _ => false end then
    Some (let* (s', _) := step lim s o in Some (Sys s' (y_mode y) (y_dur y) (y_label y))) else None in
  let cleaner := negb held || match y_mode y with Idle => true | _ => false end in
  match ev, y_mode y with
  | EOp o, Idle => op o
  | ECleanOp o, _ => if cleaner then op o else None
  | ECleanMove e k, _ => if cleaner && (e <=? t_h (s_tree s))%nat then
      Some (let* (t, nx, p) := rewrite (s_txg s) (s_nx s) e k (s_tree s) in Some (Sys (St t (s_txg s) nx (s_freed s ++ p)) (y_mode y) (y_dur y) (y_label y))) else None
  | EFlush, Idle => Some (let* (s', _) := step lim s Flush in Some (Sys s' Flushed (y_dur y) (y_label y)))
  | ESync, Flushed => Some (Some (Sys s Synced (s_nx s) (y_label y)))
  | ELabel, Synced => Some (let* d := serialize (s_tree s) in let* (s', _) := step lim s Tick in Some (Sys s' Idle (y_dur y) (Some d)))
  | _, _ => None
  end.
End Sys.

(** * Specification *)
Section Spec.
Context {V : Type}.
Definition map_ev (m : Z -> option V) (ev : sev V) : Z -> option V := match ev with EOp o | ECleanOp o => fst (map_step m o) | _ => m end.
(** Every execution that has not panicked, and the map that was put into the tree. *)
Inductive srun (lim : limits) (held : bool) : sys V -> (Z -> option V) -> Prop :=
| s_init txg nx : 0 <= txg -> srun lim held (Sys (init txg nx) Idle nx None) (fun _ => None)
| s_ev y m ev y' : srun lim held y m -> sstep lim held y ev = Some (Some y') -> srun lim held y' (map_ev m ev).
(** What a label promises: the tree it leads to is the map [m], and all its nodes were written before the last [sync_all]. *)
Definition good_label (d : disk V) (dur : Z) (m : Z -> option V) : Prop :=
  (forall k, get (open d) k = Some (m k)) /\ (forall a, stored (open d) a -> a_id a < dur).
End Spec.

(** * C86 *)
Section Proof.
Context {V : Type}.
Context (lim : limits) (HL : legal_limits lim).

Definition yinv (y : sys V) (m : Z -> option V) : Prop := exists nx0, rinv lim nx0 (y_st y) m /\
  match y_mode y with
  | Idle => True
  | Flushed => e_ptr (t_root (s_tree (y_st y))) <> None
  | Synced => e_ptr (t_root (s_tree (y_st y))) <> None /\ y_dur y = s_nx (y_st y)
  end.

Lemma op_step nx0 (s : st V) m o : rinv lim nx0 s m -> match o with Insert _ k _ => 0 <=? k | Remove _ => true | _ => false end = true ->
  exists s' x, step lim s o = Some (s', x) /\ rinv lim nx0 s' (fst (map_step m o)).
Proof.
  intros I L. assert (Lo : legal_op o) by (destruct o; cbn in *; try exact Logic.I; lia).
  destruct (rstep_inv lim HL nx0 s m o I Lo) as (s' & x & E & I' & _). eauto.
Qed.
Lemma flush_root nx0 (s : st V) m : rinv lim nx0 s m -> exists s' x, step lim s Flush = Some (s', x) /\ rinv lim nx0 s' m /\ e_ptr (t_root (s_tree s')) <> None.
Proof.
  intros I. destruct (rstep_inv lim HL nx0 s m Flush I Logic.I) as (s' & x & E & I' & _). exists s', x. split; [exact E|]. split; [exact I'|].
  pose proof (proj1 I) as G. unfold TreeCZ_Proofs.rgood in G. cbn [step] in E.
  destruct (e_ptr (t_root (s_tree s))) as [a|] eqn:Pr.
  - assert (Ef : flush (s_txg s) (s_nx s) (s_tree s) = Some (s_tree s, s_nx s)).
    { unfold flush. rewrite Nat.mul_comm. generalize (dirty_count (t_h (s_tree s)) (e_node (t_root (s_tree s)))) as d. intros d. rewrite !Nat.add_1_r.
      cbn [Nat.mul Nat.add flush_loop]. unfold flush_iter, is_dirty. rewrite Pr. reflexivity. }
    rewrite Ef in E. injection E as <- <-. cbn [s_tree]. rewrite Pr. discriminate.
  - destruct (flush_spec lim _ _ (lims lim HL) (s_txg s) _ _ (s_nx s) G ltac:(lia)) as (t' & nx' & E1 & _ & _ & N & _). rewrite (flush_raise _ _ _ _ Pr) in E1.
    rewrite E1 in E. injection E as <- <-. exact N.
Qed.

Lemma sstep_inv (y : sys V) m ev r : yinv y m -> sstep lim true y ev = Some r -> exists y', r = Some y' /\ yinv y' (map_ev m ev).
Proof.
  intros (nx0 & I & Mo) E. destruct y as [s md dur lb]. cbn [y_st y_mode y_dur y_label] in *. unfold sstep in E. cbn [y_st y_mode y_dur y_label negb orb] in E.
  destruct ev as [o|o|e k| | |].
  - destruct md; [|discriminate E..]. destruct (match o with Insert _ k _ => 0 <=? k | Remove _ => true | _ => false end) eqn:L; [|discriminate]. injection E as <-.
    destruct (op_step nx0 s m o I L) as (s' & x & -> & I'). eexists. split; [reflexivity|]. exists nx0. split; [exact I'|exact Logic.I].
  - destruct md; [|discriminate E..]. destruct (match o with Insert _ k _ => 0 <=? k | Remove _ => true | _ => false end) eqn:L; [|discriminate]. injection E as <-.
    destruct (op_step nx0 s m o I L) as (s' & x & -> & I'). eexists. split; [reflexivity|]. exists nx0. split; [exact I'|exact Logic.I].
  - destruct md; [|discriminate E..]. cbn [andb] in E. destruct (Nat.leb_spec e (t_h (s_tree s))) as [L|L]; [|discriminate]. injection E as <-.
    destruct (rewrite_spec lim _ _ (lims lim HL) (s_txg s) e k (s_nx s) (s_tree s) (proj1 I) L) as (t & nx & p & -> & O & _). eexists. split; [reflexivity|].
    exists nx0. split; [apply okstep_inv; assumption|exact Logic.I].
  - destruct md; [|discriminate E..]. destruct (flush_root nx0 s m I) as (s' & x & Ef & I' & N). rewrite Ef in E. cbn [obind] in E. injection E as <-. eexists. split; [reflexivity|]. exists nx0. split; [exact I'|exact N].
  - destruct md; [discriminate E| |discriminate E]. injection E as <-. eexists. split; [reflexivity|]. exists nx0. split; [exact I|]. cbn. auto.
  - destruct md; [discriminate E..|]. destruct Mo as [N _]. unfold serialize in E. destruct (t_root (s_tree s)) as [rk rs rt [a|] rm rn] eqn:Er; [|cbn in N; congruence]. cbn [obind] in E.
    destruct (rstep_inv lim HL nx0 s m Tick I Logic.I) as (s' & x & Et & I' & _). rewrite Et in E. injection E as <-. eexists. split; [reflexivity|]. exists nx0. split; [exact I'|exact Logic.I].
Qed.
Lemma srun_inv y m : srun lim true y m -> yinv y m.
Proof.
  induction 1 as [txg nx L|y m ev y' _ IH E].
  - exists nx. split; [|exact Logic.I]. destruct (init_inv (V:=V) lim txg nx L) as (G & M & A). split; [apply tgood_rgood; exact G|]. split; [exact M|exact A].
  - destruct (sstep_inv y m ev _ IH E) as (y1 & [= <-] & I). exact I.
Qed.
End Proof.

(** If the cleaner held the transaction while it works, no event of any execution would panic, and every label would be good. *)
Theorem C86_labels_partial {V} lim (y : sys V) m : legal_limits lim -> srun lim true y m ->
  (forall ev, sstep lim true y ev <> Some None) /\
  (y_mode y = Synced -> exists y' d, sstep lim true y ELabel = Some (Some y') /\ y_label y' = Some d /\ good_label d (y_dur y) m).
Proof.
  intros L R. pose proof (srun_inv lim L y m R) as I. split.
  - intros ev E. destruct (sstep_inv lim L y m ev _ I E) as (y' & X & _). discriminate.
  - intros Md. destruct I as (nx0 & I & Mo). rewrite Md in Mo. destruct Mo as [N D]. destruct y as [s md dur lb]. cbn [y_st y_mode y_dur y_label] in *. subst md dur.
    unfold sstep. cbn [y_st y_mode y_dur y_label]. destruct (serialize (s_tree s)) as [d|] eqn:Es.
    2: { unfold serialize in Es. destruct (t_root (s_tree s)) as [rk rs rt [a|] rm rn]; [discriminate|cbn in N; congruence]. }
    cbn [obind step]. eexists _, d. split; [reflexivity|]. split; [reflexivity|]. destruct I as (G & M & [A1 A2]).
    assert (X : contents (open d) = contents (s_tree s) /\ all_addrs (open d) = all_addrs (s_tree s) /\ rgood lim (min_int lim) (min_leaf lim) (s_txg s) (open d)).
    { unfold serialize in Es. destruct (s_tree s) as [[rk rs rt rp rm rn] h]. cbn [t_root t_h] in *. destruct rp as [a|]; [|discriminate]. injection Es as <-.
      pose proof (rgood_parts _ _ _ _ _ G) as (K0 & _). cbn in K0. subst rk. split; [reflexivity|]. split; [reflexivity|]. exact G. }
    destruct X as (X1 & X2 & X3). split.
    + intros k. rewrite <- (get_raise (s_txg s) k (open d)). unfold TreeCZ_Proofs.rgood in X3. rewrite (get_spec _ _ _ (lims lim L) _ _ k X3), raise_contents, X1, M. reflexivity.
    + intros a S. apply (stored_addrs lim _ _ a X3) in S. rewrite X2 in S.
      assert (Y : In (a_id a) (zrange nx0 (s_nx s))) by (eapply Permutation_in; [exact A2|]; apply in_map, in_or_app; now right).
      apply in_zrange in Y. lia.
Qed.

(** In the code the cleaner does not hold the transaction.  A node that it moves after the tree was flushed makes the tree dirty, and writing the label panics. *)
Fixpoint sexec (lim : limits) (held : bool) (y : sys Z) (l : list (sev Z)) : option (sys Z) :=
  match l with [] => Some y | ev :: r => match sstep lim held y ev with Some (Some y') => sexec lim held y' r | _ => None end end.
Lemma sexec_run lim held l : forall y m y', srun lim held y m -> sexec lim held y l = Some y' -> exists m', srun lim held y' m'.
Proof.
  induction l as [|ev l IH]; intros y m y' R E; cbn [sexec] in E; [injection E as <-; eauto|].
  destruct (sstep lim held y ev) as [[y1|]|] eqn:Es; try discriminate. eapply IH; [|exact E]. eapply s_ev; eauto.
Qed.
Definition ex_first : list (sev Z) := map (fun k => EOp (Insert false (7 * k mod 31) k)) (zrange 0 31) ++ [EFlush; ESync; ELabel; EOp (Insert false 3 1); EFlush; ESync].
Theorem C86_label_panics_refuted : exists lim (y : sys Z) m, legal_limits lim /\ srun lim false y m /\ sstep lim false y ELabel = Some None.
Proof.
  destruct (sexec ex_lim false (Sys (init 3 100) Idle 100 None) (ex_first ++ [ECleanMove 0 20])) as [y|] eqn:E; [|vm_compute in E; discriminate].
  destruct (sexec_run ex_lim false _ _ (fun _ => None) y (s_init ex_lim false 3 100 ltac:(lia)) E) as (m & R). exists ex_lim, y, m. split; [exact ex_legal_limits|]. split; [exact R|].
  vm_compute in E. injection E as <-. vm_compute. reflexivity.
Qed.
(** A root that it moves after the blocks were synced gets into the label, though it might not survive a crash. *)
Theorem C86_label_not_durable_refuted : exists lim (y y' : sys Z) m d a, legal_limits lim /\ srun lim false y m /\ sstep lim false y ELabel = Some (Some y') /\
  y_label y' = Some d /\ stored (open d) a /\ y_dur y <= a_id a.
Proof.
  destruct (sexec ex_lim false (Sys (init 3 100) Idle 100 None) (ex_first ++ [ECleanMove 2 0])) as [y|] eqn:E; [|vm_compute in E; discriminate].
  destruct (sexec_run ex_lim false _ _ (fun _ => None) y (s_init ex_lim false 3 100 ltac:(lia)) E) as (m & R). vm_compute in E. injection E as E.
  destruct (sstep ex_lim false y ELabel) as [[y'|]|] eqn:E2; [|rewrite <- E in E2; vm_compute in E2; discriminate..].
  destruct (y_label y') as [d|] eqn:E3; [|rewrite <- E in E2; vm_compute in E2; injection E2 as E2; rewrite <- E2 in E3; vm_compute in E3; discriminate].
  exists ex_lim, y, y', m, d, (Addr 116 4). split; [exact ex_legal_limits|]. split; [exact R|]. split; [exact E2|]. split; [exact E3|].
  rewrite <- E in E2. vm_compute in E2. injection E2 as E2. rewrite <- E2 in E3. vm_compute in E3. injection E3 as <-. rewrite <- E. split; [apply addrs_holds; vm_compute; tauto|cbn; lia].
Qed.
(** The hypotheses of the first theorem are met: a tree of three levels, cleaned before it is flushed, in its second transaction. *)
Example C86_example : exists (y : sys Z) m, srun ex_lim true y m /\ y_mode y = Synced /\ t_h (s_tree (y_st y)) = 2%nat /\ y_label y <> None.
Proof.
  destruct (sexec ex_lim true (Sys (init 3 100) Idle 100 None) (firstn 34 ex_first ++ [ECleanMove 0 20; ECleanOp (Remove 8); EFlush; ESync])) as [y|] eqn:E; [|vm_compute in E; discriminate].
  destruct (sexec_run ex_lim true _ _ (fun _ => None) y (s_init ex_lim true 3 100 ltac:(lia)) E) as (m & R). exists y, m. split; [exact R|]. vm_compute in E. injection E as <-. split; [reflexivity|]. split; [reflexivity|discriminate].
Qed.

Print Assumptions C86_labels_partial.
Print Assumptions C86_label_panics_refuted.
Print Assumptions C86_label_not_durable_refuted.
