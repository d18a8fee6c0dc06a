(** C84, C85: cleaning a zone moves every node of a B-tree out of it. *)
From Verif Require Import Common ZMap FSM_Model Tree_Model TreeRD_Model Tree_Inv Tree_Proofs Tree_Remove Tree_Range Tree_Flush Tree_Props TreeCZ_Model TreeCZ_Proofs TreeCZ_Conc.
From Coq Require Import Permutation.

(** * Specification *)
Section Spec.
Context {V : Type}.

(** Some node of the tree is stored at address [a]. *)
Definition stored (t : tree V) (a : addr) : Prop := exists e, holds t e /\ e_ptr e = Some a.
(** The transactions [txs], ... [txe - 1] include those in which the nodes in the zone were written. *)
Definition covers (bad : addr -> bool) (txs txe : Z) (t : tree V) : Prop := forall a, stored t a -> bad a = true -> txs <= a_txg a < txe.
(** No address handed out from now on lies in the zone: it is closed. *)
Definition closed (bad : addr -> bool) (nx : Z) : Prop := forall a, nx <= a_id a -> bad a = false.

(** Histories that include cleanings, of any zones, that move the nodes of a level in any order.  The last argument is the first address handed out. *)
Inductive hreach (lim : limits) : st V -> (Z -> option V) -> Z -> Prop :=
| h_init txg nx : 0 <= txg -> hreach lim (init txg nx) (fun _ => None) nx
| h_step s m nx0 o s' x : hreach lim s m nx0 -> legal_op o -> step lim s o = Some (s', x) -> hreach lim s' (fst (map_step m o)) nx0
| h_clean s m nx0 bad fuel order txs txe t nx p : hreach lim s m nx0 -> covers bad txs txe (s_tree s) -> closed bad (s_nx s) ->
    (forall e l, Permutation (order e l) l) -> clean_zone bad fuel order txs txe (s_txg s) (s_nx s) (s_tree s) = Some (t, nx, p) ->
    hreach lim (St t (s_txg s) nx (s_freed s ++ p)) m nx0.
End Spec.

(** * Connection with the invariant *)
Section Connect.
Context {V : Type}.
Context (lim : limits) (HL : legal_limits lim).
Notation rgood := (@rgood V lim (min_int lim) (min_leaf lim)).

Definition rinv (nx0 : Z) (s : st V) (m : Z -> option V) : Prop :=
  rgood (s_txg s) (s_tree s) /\ (forall k, m k = zm_get k (contents (s_tree s))) /\ accounted nx0 s.

Lemma elem_rec h : forall lo hi ts te (n : node V) e a, good lim (min_int lim) (min_leaf lim) h lo hi ts te n -> elem_in n e -> e_ptr e = Some a ->
  exists lv k, rec_in h n lv k a.
Proof.
  induction h as [|h IH]; intros lo hi ts te n e a G H P.
  - destruct n as [l|cs]; [inversion H|destruct G].
  - destruct n as [l|cs]; [destruct G|]. apply good_S in G. destruct G as [C _]. inversion H as [cs' e' I|cs' c e' I H']; subst.
    + exists h, (e_key e), e. split; [exact I|]. left. auto.
    + destruct (chain_in _ _ _ _ _ C I) as (_ & nx & (_ & _ & _ & _ & G)). destruct (IH _ _ _ _ _ _ _ G H' P) as (lv & k & R).
      exists lv, k, c. auto.
Qed.
Lemma rec_elem h : forall (n : node V) lv k a, rec_in h n lv k a -> exists e, elem_in n e /\ e_ptr e = Some a.
Proof.
  induction h as [|h IH]; intros [l|cs] lv k a R; try destruct R as [].
  destruct H as (I & [(_ & _ & P)|R]); [exists x; split; [now constructor|exact P]|].
  destruct (IH _ _ _ _ R) as (e & E & P). exists e. split; [eapply elem_below; eauto|exact P].
Qed.
Lemma stored_rec T t a : rgood T t -> (stored t a <-> exists lv k, trec t lv k a).
Proof.
  intros G. apply rgood_parts in G. destruct G as (_ & G & _). split.
  - intros (e & [->|H] & P); [exists (t_h t), (e_key (t_root t)); left; auto|]. destruct (elem_rec _ _ _ _ _ _ _ _ G H P) as (lv & k & R). exists lv, k. now right.
  - intros (lv & k & [(_ & _ & P)|R]); [exists (t_root t); split; [now left|exact P]|]. apply rec_elem in R. destruct R as (e & E & P). exists e. split; [now right|exact P].
Qed.

Lemma stored_addrs T t a : rgood T t -> stored t a -> In a (all_addrs t).
Proof.
  intros G S. apply (stored_rec T t a G) in S. destruct S as (lv & k & X). clear - X. unfold all_addrs. rewrite addrs_e. apply in_or_app.
  destruct X as [(_ & _ & X)|X]; [left; rewrite X; now left|right]. revert X. generalize (e_node (t_root t)) as n. generalize (t_h t) as h.
  induction h as [|h IH]; intros [l|cs] X; try destruct X as []. rewrite addrs_Int. apply in_flat_map. exists x. destruct H as (I & [(_ & _ & Y)|Y]); (split; [exact I|]); rewrite addrs_e; apply in_or_app.
  - left. rewrite Y. now left.
  - right. now apply IH.
Qed.

Lemma rstep_inv nx0 s m o : rinv nx0 s m -> legal_op o -> exists s' x,
  step lim s o = Some (s', x) /\ rinv nx0 s' (fst (map_step m o)) /\ snd (map_step m o) = x.
Proof.
  intros (G & M & [A1 A2]) Lo. unfold TreeCZ_Proofs.rgood in G. set (t1 := raise (s_txg s) (s_tree s)) in *.
  assert (Ec : contents t1 = contents (s_tree s)) by apply raise_contents. assert (Ea : all_addrs t1 = all_addrs (s_tree s)) by apply raise_addrs.
  assert (Ok : zm_ok (contents (s_tree s))) by (rewrite <- Ec; exact (tgood_ok _ _ _ _ _ G)).
  destruct o as [seq k v|k| | |]; cbn [step map_step fst snd].
  - destruct (insert_spec lim _ _ (lims lim HL) _ (s_txg s) _ seq k v G ltac:(lia) Lo) as (t' & p & E & G' & C & P & _).
    unfold t1 in E. rewrite insert_raise in E. fold t1 in E. rewrite E. eexists _, _. split; [reflexivity|]. rewrite Ec in *. rewrite Ea in P. split; [|apply M].
    split; [apply tgood_rgood; exact G'|]. cbn [s_tree s_txg s_nx s_freed]. split.
    + intros j. rewrite C, zm_get_set by exact Ok. now destruct (j =? k).
    + split; [exact A1|]. cbn [s_tree s_txg s_nx s_freed]. rewrite <- app_assoc, P. exact A2.
  - destruct (remove_spec lim _ _ (lims lim HL) _ (s_txg s) _ k G ltac:(lia) ltac:(apply HL)) as (t' & p & E & G' & C & P & _).
    unfold t1 in E. rewrite remove_raise in E. fold t1 in E. rewrite E. eexists _, _. split; [reflexivity|]. rewrite Ec in *. rewrite Ea in P. split; [|apply M].
    split; [apply tgood_rgood; exact G'|]. cbn [s_tree s_txg s_nx s_freed]. split.
    + intros j. rewrite C, zm_get_del by exact Ok. now destruct (j =? k).
    + split; [exact A1|]. cbn [s_tree s_txg s_nx s_freed]. rewrite <- app_assoc, P. exact A2.
  - destruct (flush_spec lim _ _ (lims lim HL) (s_txg s) _ _ (s_nx s) G ltac:(lia)) as (t' & nx' & E & F & G' & _ & Same).
    destruct (e_ptr (t_root (s_tree s))) as [a|] eqn:Pr.
    + (* the root is on disk *)
      assert (Ef : flush (s_txg s) (s_nx s) (s_tree s) = Some (s_tree s, s_nx s)).
      { unfold flush. rewrite Nat.mul_comm. generalize (dirty_count (t_h (s_tree s)) (e_node (t_root (s_tree s)))) as d. intros d. rewrite !Nat.add_1_r.
        cbn [Nat.mul Nat.add flush_loop]. unfold flush_iter, is_dirty. rewrite Pr. reflexivity. }
      rewrite Ef. eexists _, _. split; [reflexivity|]. split; [|reflexivity]. split; [exact G|]. split; [exact M|split; assumption].
    + unfold t1 in E. rewrite (flush_raise _ _ _ _ Pr) in E. fold t1 in E. rewrite E. eexists _, _. split; [reflexivity|]. split; [|reflexivity].
      split; [apply tgood_rgood; exact G'|]. cbn [s_tree s_txg s_nx s_freed]. split.
      * intros j. destruct F as (_ & C & _). rewrite C, Ec. apply M.
      * apply flush_addrs in F. destruct F as [F1 F2]. rewrite Ea in F2. split; cbn [s_tree s_txg s_nx s_freed]; [lia|].
        rewrite (zrange_split nx0 (s_nx s) nx') by lia. rewrite map_app, F2, map_app, map_map. cbn [a_id]. rewrite map_id.
        rewrite Permutation_app_swap_app, <- map_app, A2. apply Permutation_app_comm.
  - eexists _, _. split; [reflexivity|]. split; [|reflexivity]. split; [cbn; eapply rgood_mono; [|exact G]; lia|]. split; [exact M|]. split; assumption.
  - destruct (serialize (s_tree s)) as [d|] eqn:E; eexists _, _; (split; [reflexivity|]); (split; [|reflexivity]).
    + unfold serialize in E. destruct (s_tree s) as [[rk rs rt rp rm rn] h]. cbn [t_root t_h] in *. destruct rp as [a|]; [|discriminate]. injection E as <-.
      pose proof (rgood_parts _ _ _ _ _ G) as (K0 & _). cbn in K0. subst rk. split; [exact G|]. split; [exact M|split; assumption].
    + split; [exact G|]. split; [exact M|]. split; assumption.
Qed.

Lemma okstep_inv nx0 s m t nx p : rinv nx0 s m -> okstep lim (min_int lim) (min_leaf lim) (s_txg s) (s_tree s) t (s_nx s) nx p -> rinv nx0 (St t (s_txg s) nx (s_freed s ++ p)) m.
Proof.
  intros (G & M & [A1 A2]) (B1 & B2 & B3 & B4 & B5). split; [exact B1|]. cbn [s_tree s_txg s_nx s_freed]. split; [intros k; rewrite B3; apply M|].
  split; cbn [s_tree s_txg s_nx s_freed]; [lia|]. rewrite <- app_assoc, B5. unfold newaddrs.
  rewrite (zrange_split nx0 (s_nx s) nx) by lia. rewrite Permutation_app_swap_app, map_app, map_map. cbn [a_id]. rewrite map_id, A2. apply Permutation_app_comm.
Qed.
Lemma cover_rec bad txs txe T t : rgood T t -> (covers bad txs txe t <-> forall lv k a, trec t lv k a -> bad a = true -> txs <= a_txg a < txe).
Proof.
  intros G. split.
  - intros C lv k a R. apply C. apply (stored_rec T t a G). eauto.
  - intros C a S. apply (stored_rec T t a G) in S. destruct S as (lv & k & R). eapply C; eauto.
Qed.

Lemma hreach_inv s m nx0 : hreach lim s m nx0 -> rinv nx0 s m.
Proof.
  induction 1 as [txg nx L|s m nx0 o s' x _ IH Lo E|s m nx0 bad fuel order txs txe t nx p _ IH Cov Cl Ord E].
  - destruct (init_inv (V:=V) lim txg nx L) as (G & M & A). split; [apply tgood_rgood; exact G|]. split; [exact M|exact A].
  - destruct (rstep_inv nx0 s m o IH Lo) as (s1 & x1 & E1 & I1 & _). rewrite E in E1. injection E1 as <- <-. exact I1.
  - pose proof (proj1 IH) as G.
    destruct (clean_zone_spec lim _ _ (lims lim HL) (s_txg s) bad txs txe order Ord (s_nx s) (s_tree s) G Cl (proj1 (cover_rec bad txs txe _ _ G) Cov)) as (N & t1 & nx1 & p1 & E1 & O1 & _).
    assert (X : (t1, nx1, p1) = (t, nx, p)).
    { assert (Mono : forall f f' e n nx (t : tree V) r, (f <= f')%nat -> clean_from bad f order txs txe (s_txg s) nx e n t = Some r -> clean_from bad f' order txs txe (s_txg s) nx e n t = Some r).
      { assert (MonoP : forall f f' e cur (t : tree V) r, (f <= f')%nat -> pass1 bad f txs txe e cur t = Some r -> pass1 bad f' txs txe e cur t = Some r).
        { clear. induction f as [|f IH]; intros f' e cur t r Hf H; [discriminate|]. destruct f' as [|f']; [lia|]. cbn [pass1] in *. destruct (get_dirty bad txs txe e cur t) as [[l [k|]]|]; cbn [obind] in *; try exact H.
          destruct (pass1 bad f txs txe e k t) as [l'|] eqn:Ep; [|discriminate]. rewrite (IH f' e k t l' ltac:(lia) Ep). exact H. }
        clear - MonoP. intros f f' e n. revert e. induction n as [|n IH]; intros e nx t r Hf H; [exact H|]. cbn [clean_from] in *. destruct (pass1 bad f txs txe e 0 t) as [keys|] eqn:Ep; [|discriminate].
        rewrite (MonoP f f' e 0 t keys Hf Ep). cbn [obind] in *. destruct (rewrite_all (s_txg s) nx e (order e keys) t) as [[[t1 nx1] p1]|]; [|discriminate]. cbn [obind] in *.
        destruct (clean_from bad f order txs txe (s_txg s) nx1 (S e) n t1) as [[[t2 nx2] p2]|] eqn:Ec; [|discriminate]. rewrite (IH (S e) nx1 t1 _ Hf Ec). exact H. }
      unfold clean_zone in *. specialize (E1 (Nat.max fuel N) ltac:(lia)). rewrite (Mono fuel (Nat.max fuel N) _ _ _ _ _ ltac:(lia) E) in E1. congruence. }
    injection X as -> -> ->. apply okstep_inv; assumption.
Qed.
End Connect.

(** * C84 *)

(** In any state that any history leads to, cleaning a closed zone, given transactions that include those in which the tree's nodes in the zone were written, ends without
    a panic, in whatever order the nodes are rewritten; then no node is in the zone, each that was has been given back, and every key has the value it had. *)
Theorem C84_zone_is_emptied {V} lim (s : st V) m nx0 bad order txs txe : legal_limits lim -> hreach lim s m nx0 ->
  covers bad txs txe (s_tree s) -> closed bad (s_nx s) -> (forall e l, Permutation (order e l) l) ->
  exists n t nx p, (forall fuel, (n <= fuel)%nat -> clean_zone bad fuel order txs txe (s_txg s) (s_nx s) (s_tree s) = Some (t, nx, p)) /\
    (forall a, stored t a -> bad a = false) /\ (forall a, stored (s_tree s) a -> bad a = true -> In a p) /\ (forall k, get t k = get (s_tree s) k).
Proof.
  intros L H Cov Cl Ord. pose proof (hreach_inv lim L s m nx0 H) as I. pose proof I as (G & M & _).
  destruct (clean_zone_spec lim _ _ (lims lim L) (s_txg s) bad txs txe order Ord (s_nx s) (s_tree s) G Cl (proj1 (cover_rec lim bad txs txe _ _ G) Cov)) as (N & t & nx & p & E & O & R).
  exists N, t, nx, p. split; [exact E|]. pose proof O as (G' & Hh & C & Hn & P).
  assert (Hs : forall a, stored t a -> bad a = false).
  { intros a S. apply (stored_rec lim _ _ a G') in S. destruct S as (lv & k & X). eapply R; eauto. }
  split; [exact Hs|]. split.
  - intros a S Hb. destruct S as (e & He & Pe).
    assert (In a (all_addrs (s_tree s))) by (apply (stored_addrs lim _ _ a G); exists e; auto).
    assert (X : In a (p ++ all_addrs t)) by (eapply Permutation_in; [symmetry; exact P|]; apply in_or_app; now right).
    apply in_app_or in X. destruct X as [X|X]; [exact X|]. exfalso. apply addrs_holds in X. destruct X as (e' & He' & Pe'). rewrite (Hs a) in Hb; [discriminate|]. exists e'. auto.
  - intros k. unfold TreeCZ_Proofs.rgood in G, G'. rewrite <- (get_raise (s_txg s) k t), <- (get_raise (s_txg s) k (s_tree s)).
    rewrite (get_spec _ _ _ (lims lim L) _ _ k G), (get_spec _ _ _ (lims lim L) _ _ k G'), !raise_contents, C. reflexivity.
Qed.

(** A tree that was cleaned now and then is still the map that was put into it, and no operation on it panics. *)
Theorem C84_history_as_map {V} lim (s : st V) m nx0 : legal_limits lim -> hreach lim s m nx0 ->
  (forall k, get (s_tree s) k = Some (m k)) /\ forall o, legal_op o -> exists s', step lim s o = Some (s', snd (map_step m o)).
Proof.
  intros L H. apply (hreach_inv lim L) in H. split.
  - destruct H as (G & M & _). intros k. unfold TreeCZ_Proofs.rgood in G. rewrite <- (get_raise (s_txg s) k (s_tree s)), (get_spec _ _ _ (lims lim L) _ _ k G), raise_contents, M. reflexivity.
  - intros o Lo. destruct (rstep_inv lim L nx0 s m o H Lo) as (s' & x & E & _ & <-). eauto.
Qed.
(** Every address handed out is that of a node of the tree, or was given back once. *)
Theorem C84_no_leak_no_double_free {V} lim (s : st V) m nx0 : legal_limits lim -> hreach lim s m nx0 ->
  Permutation (map a_id (s_freed s ++ all_addrs (s_tree s))) (zrange nx0 (s_nx s)).
Proof. intros L H. apply (hreach_inv lim L) in H. apply H. Qed.

(** The tree of C27's example, flushed: the zone holds eight of its nine leaves. *)
Definition low (b : Z) (a : addr) : bool := a_id a <? b.
Definition back (e : nat) (l : list Z) : list Z := rev l.
Definition ex_flushed : st Z := match run ex_lim (init 3 100) (firstn 34 ex_ops) with Some (s, _) => s | None => init 0 0 end.

Lemma run_hreach {V} lim ops : forall (s : st V) m nx0 s' xs, hreach lim s m nx0 -> Forall legal_op ops -> run lim s ops = Some (s', xs) -> exists m', hreach lim s' m' nx0.
Proof.
  induction ops as [|o ops IH]; intros s m nx0 s' xs H F E; cbn [run] in E; [injection E as <- _; eauto|].
  destruct (step lim s o) as [[s1 x]|] eqn:Es; [|discriminate]. cbn [obind] in E. destruct (run lim s1 ops) as [[s2 ys]|] eqn:Er; [|discriminate]. injection E as <- _.
  inversion F; subst. eapply IH; [|eassumption|exact Er]. eapply h_step; eauto.
Qed.
Lemma ex_flushed_reach : exists m, hreach ex_lim ex_flushed m 100.
Proof.
  destruct (run ex_lim (init 3 100) (firstn 34 ex_ops)) as [[s xs]|] eqn:E; [|vm_compute in E; discriminate].
  destruct (run_hreach ex_lim (firstn 34 ex_ops) (init 3 100) (fun _ => None) 100 s xs) as (m & H); [apply h_init; lia| |exact E|].
  - apply Forall_forall. intros o I. apply in_firstn in I. pose proof ex_legal_ops as F. rewrite Forall_forall in F. auto.
  - exists m. unfold ex_flushed. rewrite E. exact H.
Qed.
Lemma covers_of lim (s : st Z) m nx0 bad txs txe : legal_limits lim -> hreach lim s m nx0 ->
  forallb (fun a => negb (bad a) || ((txs <=? a_txg a) && (a_txg a <? txe))) (all_addrs (s_tree s)) = true -> covers bad txs txe (s_tree s).
Proof.
  intros L R F a S B. destruct (hreach_inv lim L s m nx0 R) as (G & _). apply (stored_addrs lim _ _ a G) in S. rewrite forallb_forall in F.
  specialize (F a S). rewrite B in F. cbn [negb orb] in F. apply andb_prop in F. lia.
Qed.

Example C84_example : exists m, legal_limits ex_lim /\ hreach ex_lim ex_flushed m 100 /\ covers (low 108) 3 4 (s_tree ex_flushed) /\ closed (low 108) (s_nx ex_flushed) /\
  (forall e l, Permutation (back e l) l) /\
  exists t nx p, clean_zone (low 108) 20 back 3 4 (s_txg ex_flushed) (s_nx ex_flushed) (s_tree ex_flushed) = Some (t, nx, p) /\
    map a_id (all_addrs (s_tree ex_flushed)) = [112; 109; 100; 101; 102; 103; 110; 104; 105; 106; 111; 107; 108] /\
    map a_id (all_addrs t) = [120; 119; 118; 117; 116; 115; 114; 113; 108] /\ nx = 121 /\
    hreach ex_lim (St t (s_txg ex_flushed) nx (s_freed ex_flushed ++ p)) m 100.
Proof.
  destruct ex_flushed_reach as (m & H). exists m. split; [exact ex_legal_limits|]. split; [exact H|].
  assert (Cv : covers (low 108) 3 4 (s_tree ex_flushed)) by (apply (covers_of ex_lim _ m 100 _ _ _ ex_legal_limits H); vm_compute; reflexivity). split; [exact Cv|].
  assert (Cl : closed (low 108) (s_nx ex_flushed)) by (intros a Ha; change (s_nx ex_flushed) with 113 in Ha; unfold low; lia). split; [exact Cl|].
  assert (Pm : forall e l, Permutation (back e l) l) by (intros e l; symmetry; apply Permutation_rev). split; [exact Pm|].
  destruct (clean_zone (low 108) 20 back 3 4 (s_txg ex_flushed) (s_nx ex_flushed) (s_tree ex_flushed)) as [[[t nx] p]|] eqn:E; [|vm_compute in E; discriminate].
  exists t, nx, p. split; [reflexivity|]. split; [vm_compute; reflexivity|].
  assert (X : map a_id (all_addrs t) = [120; 119; 118; 117; 116; 115; 114; 113; 108] /\ nx = 121) by (vm_compute in E; injection E as <- <- _; split; reflexivity).
  split; [apply X|]. split; [apply X|]. eapply h_clean; eassumption.
Qed.

(** If the transactions given leave out that of a node in the zone, the node can be left in it without any error: this is what comes of a zone whose record of
    its transactions is too narrow (C83). *)
Theorem C84_transactions_left_out_refuted : exists lim (s : st Z) m nx0 bad order txs txe t nx p, legal_limits lim /\ hreach lim s m nx0 /\ closed bad (s_nx s) /\
  (forall e l, Permutation (order e l) l) /\ clean_zone bad 20 order txs txe (s_txg s) (s_nx s) (s_tree s) = Some (t, nx, p) /\ exists a, stored t a /\ bad a = true.
Proof.
  destruct ex_flushed_reach as (m & H). exists ex_lim, ex_flushed, m, 100, (low 108), back, 4, 5.
  destruct (clean_zone (low 108) 20 back 4 5 (s_txg ex_flushed) (s_nx ex_flushed) (s_tree ex_flushed)) as [[[t nx] p]|] eqn:E; [|vm_compute in E; discriminate].
  exists t, nx, p. split; [exact ex_legal_limits|]. split; [exact H|]. split; [intros a Ha; change (s_nx ex_flushed) with 113 in Ha; unfold low; lia|].
  split; [intros e l; symmetry; apply Permutation_rev|]. split; [reflexivity|]. exists (Addr 100 3). split; [|reflexivity].
  assert (X : all_addrs t = all_addrs (s_tree ex_flushed)) by (vm_compute in E; injection E as <- _ _; reflexivity).
  apply addrs_holds. rewrite X. vm_compute. tauto.
Qed.
(** Moving the root does not put down that it was written in this transaction: a search of the tree for what was written in it (C31) then misses the root. *)
Theorem C84_root_transaction_refuted : exists lim (s : st Z) m nx0 a, legal_limits lim /\ hreach lim s m nx0 /\
  stored (s_tree s) a /\ a_txg a = 4 /\ ~ In a (addresses (Inc 4) Unb (s_tree s)).
Proof.
  destruct ex_flushed_reach as (m & H).
  destruct (clean_zone (fun a => a_id a =? 112) 20 back 3 4 (s_txg ex_flushed) (s_nx ex_flushed) (s_tree ex_flushed)) as [[[t nx] p]|] eqn:E; [|vm_compute in E; discriminate].
  exists ex_lim, (St t (s_txg ex_flushed) nx (s_freed ex_flushed ++ p)), m, 100, (Addr 113 4). split; [exact ex_legal_limits|]. split.
  - eapply h_clean; [exact H| | | |exact E].
    + apply (covers_of ex_lim _ m 100 _ _ _ ex_legal_limits H). vm_compute. reflexivity.
    + intros a Ha. change (s_nx ex_flushed) with 113 in Ha. lia.
    + intros e l. symmetry. apply Permutation_rev.
  - cbn [s_tree]. vm_compute in E. injection E as <- _ _. split; [apply addrs_holds; vm_compute; tauto|]. split; [reflexivity|]. vm_compute. tauto.
Qed.

(** * C85: cleaning while the tree is in use *)

(** What the cleaner is doing: looking for nodes of a level from a key on, having found some; moving the nodes found; nothing more. *)
Inductive phase := Scan (e : nat) (key : Z) (found : list Z) | Move (e : nat) (todo : list Z) | Done.
Definition client {V} (o : op V) : Prop := match o with Insert _ _ _ | Remove _ => True | _ => False end.

(** Executions in which insertions and removals, by anyone, come between the cleaner's steps, all in one transaction.  [H] is the height the cleaner read when it started. *)
Inductive crun {V} (lim : limits) (bad : addr -> bool) (txs txe nx0 : Z) (H : nat) : st V -> (Z -> option V) -> phase -> Prop :=
| c_start s m : hreach lim s m nx0 -> covers bad txs txe (s_tree s) -> closed bad (s_nx s) -> H = S (t_h (s_tree s)) -> crun lim bad txs txe nx0 H s m (Scan 0 0 [])
| c_client s m ph o s' x : crun lim bad txs txe nx0 H s m ph -> client o -> legal_op o -> step lim s o = Some (s', x) -> crun lim bad txs txe nx0 H s' (fst (map_step m o)) ph
| c_scan s m e key found l next : crun lim bad txs txe nx0 H s m (Scan e key found) -> get_dirty bad txs txe e key (s_tree s) = Some (l, next) ->
    crun lim bad txs txe nx0 H s m (match next with Some k => Scan e k (found ++ l) | None => Move e (found ++ l) end)
| c_move s m e l1 k l2 t nx p : crun lim bad txs txe nx0 H s m (Move e (l1 ++ k :: l2)) -> rewrite (s_txg s) (s_nx s) e k (s_tree s) = Some (t, nx, p) ->
    crun lim bad txs txe nx0 H (St t (s_txg s) nx (s_freed s ++ p)) m (Move e (l1 ++ l2))
| c_next s m e : crun lim bad txs txe nx0 H s m (Move e []) -> crun lim bad txs txe nx0 H s m (if (S e <? H)%nat then Scan (S e) 0 [] else Done).

Section InUse.
Context {V : Type}.
Context (lim : limits) (HL : legal_limits lim) (bad : addr -> bool) (txs txe nx0 : Z) (H : nat).
Notation rgood := (@rgood V lim (min_int lim) (min_leaf lim)).

Definition pinv (t : tree V) (ph : phase) : Prop := forall lv k a, trec t lv k a -> bad a = true ->
  match ph with
  | Scan e cur fnd => (e <= lv)%nat /\ (lv = e -> In k fnd \/ cur <= k)
  | Move e todo => (e <= lv)%nat /\ (lv = e -> In k todo)
  | Done => False
  end.
Definition cinv (s : st V) (m : Z -> option V) (ph : phase) : Prop := rinv lim nx0 s m /\ closed bad (s_nx s) /\
  (forall lv k a, trec (s_tree s) lv k a -> bad a = true -> txs <= a_txg a < txe /\ (lv < H)%nat) /\ pinv (s_tree s) ph.

Lemma trec_bounds T t lv k a : rgood T t -> trec t lv k a -> 0 <= k /\ (lv <= t_h t)%nat.
Proof.
  intros G R. apply rgood_parts in G. destruct G as (K0 & G & _). destruct R as [(-> & -> & _)|R]; [lia|]. eapply rec_bounds in R; [|exact G]. lia.
Qed.
Lemma client_rec s o s' (x : option V) : client o -> step lim s o = Some (s', x) -> tsub (s_tree s') (s_tree s) /\ s_nx s' = s_nx s.
Proof.
  destruct o as [seq k v|k| | |]; cbn [client step]; try tauto; intros _.
  - destruct (insert lim seq (s_txg s) k v (s_tree s)) as [[[t old] p]|] eqn:E; [|discriminate]. intros [= <- <-]. split; [|reflexivity]. eapply insert_rec; eauto.
  - destruct (remove lim (s_txg s) k (s_tree s)) as [[[t old] p]|] eqn:E; [|discriminate]. intros [= <- <-]. split; [|reflexivity]. eapply remove_rec; eauto.
Qed.
Lemma rewrite_r_low txg e key h : forall nx lo hi ts te (n : node V), good lim (min_int lim) (min_leaf lim) h lo hi ts te n -> (h <= e)%nat -> rewrite_r txg nx e key h n = None.
Proof.
  induction h as [|h IH]; intros nx lo hi ts te n G L; (destruct n as [l|cs]; [reflexivity|]); [destruct G|].
  apply good_S in G. destruct G as [C F]. cbn [rewrite_r]. destruct (Nat.eqb_spec h e) as [E|E]; [lia|]. unfold xlock_at.
  destruct (nth_error cs (position cs key)) as [c|] eqn:En; [|reflexivity]. cbn [obind]. apply nth_error_In in En. destruct (chain_in _ _ _ _ _ C En) as (_ & nk & (_ & _ & _ & _ & G)).
  destruct (xlock txg c) as [[c' p]|] eqn:Ex; [|reflexivity]. cbn [obind]. apply xlock_rec in Ex. destruct Ex as [_ Ex]. rewrite Ex.
  rewrite (IH _ _ _ _ _ _ G) by lia. reflexivity.
Qed.
Lemma rewrite_low T txg nx e key t r : rgood T t -> rewrite txg nx e key t = Some r -> (e <= t_h t)%nat.
Proof.
  intros G E. apply rgood_parts in G. destruct G as (_ & G & _). destruct (Nat.le_gt_cases e (t_h t)) as [L|L]; [exact L|exfalso]. unfold rewrite in E.
  destruct (Nat.eqb_spec (t_h t) e); [lia|]. destruct t as [[rk rs rt rp rm rn] h]. cbn [t_h t_root e_node e_ts] in *. cbn [xlock_root e_node] in E.
  rewrite (rewrite_r_low txg e key h _ _ _ _ _ _ G) in E by lia. discriminate.
Qed.

Lemma crun_inv s m ph : crun lim bad txs txe nx0 H s m ph -> cinv s m ph.
Proof.
  induction 1 as [s m R Cv Cl EH|s m ph o s' x _ (I & Cl & B & P) Co Lo E|s m e key fnd l next _ (I & Cl & B & P) E|s m e l1 k l2 t nx p _ (I & Cl & B & P) E|s m e _ (I & Cl & B & P)].
  - pose proof (hreach_inv lim HL s m nx0 R) as I. pose proof (proj1 I) as G. split; [exact I|]. split; [exact Cl|]. rewrite (cover_rec lim bad txs txe _ _ G) in Cv. split.
    + intros lv k a X Hb. split; [eapply Cv; eauto|]. apply (trec_bounds _ _ _ _ _ G) in X. lia.
    + intros lv k a X Hb. apply (trec_bounds _ _ _ _ _ G) in X. split; [lia|]. right. lia.
  - destruct (rstep_inv lim HL nx0 s m o I Lo) as (s1 & x1 & E1 & I1 & _). rewrite E in E1. injection E1 as <- <-.
    destruct (client_rec s o s' x Co E) as [T N]. split; [exact I1|]. split; [rewrite N; exact Cl|]. split; [intros lv k a X; apply (B lv k a); apply T; exact X|].
    intros lv k a X. apply P. apply T. exact X.
  - split; [exact I|]. split; [exact Cl|]. split; [exact B|]. pose proof (proj1 I) as G0. pose proof (rgood_parts _ _ _ _ _ G0) as (K0 & G & _ & _ & N & _).
    assert (X : forall k a, trec (s_tree s) e k a -> bad a = true -> In k (fnd ++ l) \/ exists k', next = Some k' /\ k' <= k).
    { intros k a X Hb. destruct (P e k a X Hb) as [_ Q]. destruct (Q eq_refl) as [Q'|Q']; [left; apply in_or_app; now left|].
      destruct (Nat.eq_dec (t_h (s_tree s)) e) as [Eh|Eh].
      - unfold get_dirty in E. rewrite Eh, Nat.eqb_refl in E. injection E as <- <-. left. apply in_or_app. right. destruct X as [(_ & -> & Y)|X].
        + unfold in_zone. rewrite Y, Hb. now left.
        + exfalso. eapply rec_bounds in X; [|exact G]. lia.
      - destruct (Nat.le_gt_cases e (t_h (s_tree s))) as [L|L]; [|apply (trec_bounds _ _ _ _ _ G0) in X; lia].
        destruct (get_dirty_r_spec lim _ _ (lims lim HL) bad txs txe e key (t_h (s_tree s)) _ _ _ _ _ G N ltac:(lia) Logic.I) as (l' & nx' & Hg & _ & _ & _ & Hf).
        { intros lv j b Y Hbb. eapply B; [right; exact Y|exact Hbb]. }
        unfold get_dirty in E. destruct (Nat.eqb_spec (t_h (s_tree s)) e); [lia|]. rewrite Hg in E. injection E as -> ->.
        destruct X as [(Y & _)|X]; [lia|]. destruct (Hf k a X Hb Q') as [Y|Y]; [left; apply in_or_app; now right|now right]. }
    destruct next as [k'|]; intros lv k a Y Hb; (split; [apply (P lv k a Y Hb)|]); intros ->; destruct (X k a Y Hb) as [Z|(k2 & Z1 & Z2)]; auto; [|discriminate].
    injection Z1 as <-. auto.
  - pose proof (proj1 I) as G. destruct (rewrite_spec lim _ _ (lims lim HL) (s_txg s) e k (s_nx s) (s_tree s) G (rewrite_low _ _ _ _ _ _ _ G E)) as (t1 & nx1 & p1 & E1 & O1 & R1).
    rewrite E in E1. injection E1 as <- <- <-. split; [apply okstep_inv; assumption|]. destruct O1 as (_ & Hh & _ & Hn & _).
    cbn [s_tree s_nx]. split; [intros a Ha; apply Cl; lia|]. split.
    + intros lv j a X Hb. destruct (R1 lv j a X) as [Y|[Y _]]; [rewrite (Cl a) in Hb by lia; discriminate|]. eapply B; eauto.
    + intros lv j a X Hb. destruct (R1 lv j a X) as [Y|[Y Z]]; [rewrite (Cl a) in Hb by lia; discriminate|]. destruct (P lv j a Y Hb) as [P1 P2]. split; [exact P1|].
      intros ->. specialize (P2 eq_refl). apply in_app_or in P2. apply in_or_app. destruct P2 as [P2|[P2|P2]]; auto. subst j. exfalso. apply Z. auto.
  - split; [exact I|]. split; [exact Cl|]. split; [exact B|]. destruct (Nat.ltb_spec (S e) H) as [L|L]; intros lv k a X Hb; destruct (P lv k a X Hb) as [P1 P2].
    + assert (lv <> e) by (intros ->; exact (P2 eq_refl)). split; [lia|]. right. apply (trec_bounds _ _ _ _ _ (proj1 I)) in X. lia.
    + assert (lv <> e) by (intros ->; exact (P2 eq_refl)). destruct (B lv k a X Hb). lia.
Qed.
End InUse.

(** Whatever is inserted and removed while the zone is cleaned, when the cleaning ends no node is in the zone; and at any time the tree is the map that was put into it,
    no insertion or removal panics, and every address handed out is that of a node or was given back once. *)
Theorem C85_emptied_while_in_use {V} lim bad txs txe nx0 H (s : st V) m ph : legal_limits lim -> crun lim bad txs txe nx0 H s m ph ->
  (ph = Done -> forall a, stored (s_tree s) a -> bad a = false) /\
  (forall k, get (s_tree s) k = Some (m k)) /\
  (forall o, legal_op o -> exists s', step lim s o = Some (s', snd (map_step m o))) /\
  Permutation (map a_id (s_freed s ++ all_addrs (s_tree s))) (zrange nx0 (s_nx s)).
Proof.
  intros L R. pose proof (crun_inv lim L bad txs txe nx0 H s m ph R) as (I & _ & _ & P). pose proof I as (G & M & A). split; [|split; [|split]].
  - intros -> a S. destruct (bad a) eqn:Hb; [|reflexivity]. exfalso. apply (stored_rec lim _ _ a G) in S. destruct S as (lv & k & X). exact (P lv k a X Hb).
  - intros k. unfold TreeCZ_Proofs.rgood in G. rewrite <- (get_raise (s_txg s) k (s_tree s)), (get_spec _ _ _ (lims lim L) _ _ k G), raise_contents, M. reflexivity.
  - intros o Lo. destruct (rstep_inv lim L nx0 s m o I Lo) as (s' & x & E & _ & <-). eauto.
  - apply A.
Qed.
(** The cleaner does not panic as long as the tree is no lower than the level being cleaned.  Missing: trees whose height falls meanwhile (refuted below). *)
Theorem C85_cleaner_goes_on_partial {V} lim bad txs txe nx0 H (s : st V) m ph : legal_limits lim -> crun lim bad txs txe nx0 H s m ph ->
  match ph with
  | Scan e key found => (e <= t_h (s_tree s))%nat -> exists r, get_dirty bad txs txe e key (s_tree s) = Some r
  | Move e todo => (e <= t_h (s_tree s))%nat -> forall k, exists r, rewrite (s_txg s) (s_nx s) e k (s_tree s) = Some r
  | Done => True
  end.
Proof.
  intros L R. pose proof (crun_inv lim L bad txs txe nx0 H s m ph R) as (I & _ & B & P). pose proof (proj1 I) as G0. destruct ph as [e key fnd|e todo|]; [| |exact Logic.I]; intros He.
  - pose proof (rgood_parts _ _ _ _ _ G0) as (K0 & G & _ & _ & N & _). unfold get_dirty. destruct (Nat.eqb_spec (t_h (s_tree s)) e) as [Eh|Eh]; [eauto|].
    destruct (get_dirty_r_spec lim _ _ (lims lim L) bad txs txe e key (t_h (s_tree s)) _ _ _ _ _ G N ltac:(lia) Logic.I) as (l' & nx' & Hg & _).
    { intros lv j b Y Hbb. eapply B; [right; exact Y|exact Hbb]. }
    eauto.
  - intros k. destruct (rewrite_spec lim _ _ (lims lim L) (s_txg s) e k (s_nx s) (s_tree s) G0 He) as (t1 & nx1 & p1 & E1 & _). eauto.
Qed.

(** Executions, computed from a list of events. *)
Inductive event := EClient (o : op Z) | EScan | EMove (i : nat) | ENext.
Definition exec1 (bad : addr -> bool) (txs txe : Z) (H : nat) (c : st Z * phase) (ev : event) : option (st Z * phase) :=
  let (s, ph) := c in
  match ev, ph with
  | EClient (Insert q k v), _ => let* (s', x) := step ex_lim s (Insert q k v) in if (0 <=? k) && (k <? 100) then Some (s', ph) else None
  | EClient (Remove k), _ => let* (s', x) := step ex_lim s (Remove k) in if (0 <=? k) && (k <? 100) then Some (s', ph) else None
  | EScan, Scan e key found => let* (l, next) := get_dirty bad txs txe e key (s_tree s) in Some (s, match next with Some k => Scan e k (found ++ l) | None => Move e (found ++ l) end)
  | EMove i, Move e todo => match skipn i todo with
      | [] => None
      | k :: r => let* (t, nx, p) := rewrite (s_txg s) (s_nx s) e k (s_tree s) in Some (St t (s_txg s) nx (s_freed s ++ p), Move e (firstn i todo ++ r))
      end
  | ENext, Move e [] => Some (s, if (S e <? H)%nat then Scan (S e) 0 [] else Done)
  | _, _ => None
  end.
Fixpoint exec (bad : addr -> bool) (txs txe : Z) (H : nat) (c : st Z * phase) (l : list event) : option (st Z * phase) :=
  match l with [] => Some c | ev :: r => let* c' := exec1 bad txs txe H c ev in exec bad txs txe H c' r end.
Lemma exec_crun bad txs txe nx0 H l : forall s m ph s' ph', crun ex_lim bad txs txe nx0 H s m ph -> exec bad txs txe H (s, ph) l = Some (s', ph') -> exists m', crun ex_lim bad txs txe nx0 H s' m' ph'.
Proof.
  induction l as [|ev l IH]; intros s m ph s' ph' R E; cbn [exec] in E; [injection E as <- <-; eauto|].
  destruct (exec1 bad txs txe H (s, ph) ev) as [[s1 ph1]|] eqn:E1; [|discriminate]. cbn [obind] in E.
  assert (X : exists m1, crun ex_lim bad txs txe nx0 H s1 m1 ph1); [|destruct X as (m1 & X); eapply IH; eauto]. clear E IH.
  destruct ev as [[q k v|k| | |]| |i|]; cbn [exec1] in E1; try discriminate.
  - destruct (step ex_lim s (Insert q k v)) as [[s2 x]|] eqn:Es; [|discriminate]. cbn [obind] in E1. destruct ((0 <=? k) && (k <? 100)) eqn:Hk; [|discriminate]. injection E1 as <- <-.
    apply andb_prop in Hk. eexists. eapply c_client; [exact R| | |exact Es]; cbn; lia.
  - destruct (step ex_lim s (Remove k)) as [[s2 x]|] eqn:Es; [|discriminate]. cbn [obind] in E1. destruct ((0 <=? k) && (k <? 100)) eqn:Hk; [|discriminate]. injection E1 as <- <-.
    apply andb_prop in Hk. eexists. eapply c_client; [exact R| | |exact Es]; cbn; lia.
  - destruct ph as [e key fnd|e todo|]; try discriminate. destruct (get_dirty bad txs txe e key (s_tree s)) as [[l0 next]|] eqn:Eg; [|discriminate]. injection E1 as <- <-. exists m. exact (c_scan _ _ _ _ _ _ s m e key fnd l0 next R Eg).
  - destruct ph as [e key fnd|e todo|]; try discriminate. destruct (skipn i todo) as [|k r] eqn:Ek; [discriminate|].
    destruct (rewrite (s_txg s) (s_nx s) e k (s_tree s)) as [[[t nx] p]|] eqn:Ew; [|discriminate]. injection E1 as <- <-. exists m. eapply c_move; [|exact Ew].
    rewrite <- Ek, firstn_skipn. exact R.
  - destruct ph as [e key fnd|e [|k todo]|]; try discriminate. injection E1 as <- <-. exists m. exact (c_next _ _ _ _ _ _ s m e R).
Qed.
Lemma ex_crun bad : (forall a, 113 <= a_id a -> bad a = false) -> exists m, crun ex_lim bad 3 4 100 3 ex_flushed m (Scan 0 0 []).
Proof.
  intros Hb. destruct ex_flushed_reach as (m & H). exists m. apply c_start; [exact H| |exact Hb|vm_compute; reflexivity].
  assert (X : covers (fun _ => true) 3 4 (s_tree ex_flushed)) by (apply (covers_of ex_lim _ m 100 _ _ _ ex_legal_limits H); vm_compute; reflexivity).
  intros a S _. exact (X a S eq_refl).
Qed.
Definition ex_use : list event := [EScan; EClient (Insert false 50 1); EScan; EClient (Remove 20); EScan; EMove 3; EClient (Remove 4); EClient (Insert false 4 8); EMove 0; EMove 2; EMove 0; EMove 1; EMove 0; EMove 0; EMove 0;
  ENext; EScan; EClient (Insert false 51 1); ENext; EScan; ENext].
Example C85_example : exists (s : st Z) m, crun ex_lim (low 108) 3 4 100 3 s m Done /\ map a_id (all_addrs (s_tree s)) = [114; 116; 113; 115; 117] /\ length (s_freed s) = 13%nat.
Proof.
  destruct (ex_crun (low 108)) as (m & R); [intros a Ha; unfold low; lia|].
  destruct (exec (low 108) 3 4 3 (ex_flushed, Scan 0 0 []) ex_use) as [[s ph]|] eqn:E; [|vm_compute in E; discriminate].
  destruct (exec_crun _ _ _ _ _ _ _ _ _ _ _ R E) as (m' & R'). exists s, m'. vm_compute in E. injection E as <- <-. split; [exact R'|]. split; vm_compute; reflexivity.
Qed.

(** A tree whose height falls while it is cleaned, by removals that merge its root, makes the cleaner panic: it goes on with levels that are no longer there. *)
Definition ex_falls : list event := [EScan; EScan; EScan; EMove 0; EMove 0; EMove 0; EMove 0; EMove 0; EMove 0; EMove 0; EMove 0; EMove 0] ++ map (fun k => EClient (Remove k)) (zrange 0 28) ++ [ENext].
Theorem C85_height_falls_refuted : exists lim bad txs txe nx0 H (s : st Z) m e key found, legal_limits lim /\ crun lim bad txs txe nx0 H s m (Scan e key found) /\
  get_dirty bad txs txe e key (s_tree s) = None.
Proof.
  destruct (ex_crun (low 113)) as (m & R); [intros a Ha; unfold low; lia|].
  destruct (exec (low 113) 3 4 3 (ex_flushed, Scan 0 0 []) ex_falls) as [[s ph]|] eqn:E; [|vm_compute in E; discriminate].
  destruct (exec_crun _ _ _ _ _ _ _ _ _ _ _ R E) as (m' & R'). exists ex_lim, (low 113), 3, 4, 100, 3%nat, s, m', 1%nat, 0, []. split; [exact ex_legal_limits|].
  vm_compute in E. injection E as <- <-. split; [exact R'|]. vm_compute. reflexivity.
Qed.

Print Assumptions C84_zone_is_emptied.
Print Assumptions C84_history_as_map.
Print Assumptions C84_no_leak_no_double_free.
Print Assumptions C84_transactions_left_out_refuted.
Print Assumptions C84_root_transaction_refuted.
Print Assumptions C85_emptied_while_in_use.
Print Assumptions C85_cleaner_goes_on_partial.
Print Assumptions C85_height_falls_refuted.
