(** C79-C82: a pool of several clusters, and the choice of zones to clean. *)
From Verif Require Import Common ZMap FSM_Model FSM_Spec FSM_Inv FSM_Proofs FSM_Props Float_Model Pool_Model Pool_Spec Pool_Float Pool_Proofs.
From Coq Require Import Permutation Sorted Reals Lra.
From Flocq Require Import Core BinarySingleNaN.
Open Scope Z_scope.

(** * C79: space and addresses *)

(** No legal event makes the pool panic. *)
Theorem C79_never_panics gs w e : pgeometry gs -> preach gs w -> plegal gs w e -> pstep gs w e <> None.
Proof. intros PG R L. destruct (pstep_inv gs PG w e (preach_inv gs PG w R) L) as (w' & r & S & _). congruence. Qed.

(** Ranges of blocks that are in use, on whatever cluster, never overlap. *)
Definition apart (a b : pext) : Prop := fst a = fst b -> disjoint (snd a) (snd b).

Lemma disjoint_sym a b : disjoint a b -> disjoint b a.
Proof. intros D l (H1 & H2). now apply (D l). Qed.
Lemma fop_perm {A} (P : A -> A -> Prop) : (forall a b, P a b -> P b a) -> forall l l', Permutation l l' -> ForallOrdPairs P l -> ForallOrdPairs P l'.
Proof.
  intros S l l' H. induction H as [|x l l' Hp IH|x y l|l1 l2 l3 _ IH1 _ IH2]; intros F; auto.
  - inversion F as [|? ? F1 F2]; subst. constructor; [|now apply IH]. rewrite Forall_forall in *. intros y Hy. apply F1. eapply Permutation_in; [symmetry; exact Hp|exact Hy].
  - inversion F as [|? ? F1 F2]; subst. inversion F2 as [|? ? F3 F4]; subst. inversion F1 as [|? ? F5 F6]; subst.
    constructor; [constructor; [now apply S|exact F3]|]. constructor; assumption.
Qed.
Lemma fop_at (l : list pext) : (forall i, ForallOrdPairs disjoint (at_cluster i l)) -> ForallOrdPairs apart l.
Proof.
  induction l as [|x l IH]; intros H; [constructor|]. constructor.
  - rewrite Forall_forall. intros y Hy E. pose proof (H (fst x)) as F. rewrite at_cons, Nat.eqb_refl in F. inversion F as [|? ? F1 F2]; subst.
    rewrite Forall_forall in F1. apply F1. apply at_in. rewrite E. now destruct y.
  - apply IH. intros i. specialize (H i). rewrite at_cons in H. destruct (fst x =? i)%nat; [now inversion H|exact H].
Qed.

Theorem C79_extents_disjoint gs w : pgeometry gs -> preach gs w -> ForallOrdPairs apart (written w).
Proof.
  intros PG R. apply (preach_inv gs PG) in R. apply fop_at. intros i. destruct (Nat.ltb_spec i (length gs)) as [Hi|Hi].
  - destruct (cluster_at gs w i R Hi) as (g & c & E1 & E2). destruct (pi_cl gs w R i g c E1 E2) as (live & cl & Rc & P & _).
    eapply fop_perm; [apply disjoint_sym|exact P|]. exact (proj1 (C13_live_extents_disjoint (cg_v g) c live cl _ (pg_v gs PG g (nth_in_gs gs i g E1)) Rc)).
  - replace (at_cluster i (written w)) with (@nil extent); [constructor|]. symmetry. destruct (at_cluster i (written w)) as [|e l] eqn:E; [reflexivity|exfalso].
    assert (H : In e (at_cluster i (written w))) by (rewrite E; now left). apply at_in in H. apply (pi_range gs w R) in H. cbn [fst] in H. lia.
Qed.

(** The blocks in use fit into the clusters. *)
Lemma sum_bound gs w : pgeometry gs -> PInv gs w -> 0 <= blocks (written w) <= fold_right Z.add 0 (map cg_size gs).
Proof.
  intros PG R. rewrite <- (blocks_split (length gs) (written w)) by apply (pi_range gs w R).
  assert (H : forall i g, nth_error gs i = Some g -> 0 <= sum_len (at_cluster i (written w)) <= cg_size g).
  { intros i g E1. destruct (cluster_at gs w i R) as (g' & c & F1 & E2); [apply nth_lt; eauto|]. rewrite E1 in F1. injection F1 as <-.
    destruct (pi_cl gs w R i g c E1 E2) as (live & cl & Rc & P & _). rewrite <- (sum_len_perm _ _ P).
    pose proof (reach_sane _ _ _ _ _ (pg_v gs PG g (nth_in_gs gs i g E1)) Rc). pose proof (pg_size gs PG g (nth_in_gs gs i g E1)). lia. }
  revert H. generalize (written w). clear. intros l H.
  assert (G : forall gs' k, (forall i g, nth_error gs' i = Some g -> 0 <= sum_len (at_cluster (k + i) l) <= cg_size g) ->
              0 <= fold_right Z.add 0 (map (fun i => sum_len (at_cluster i l)) (seq k (length gs'))) <= fold_right Z.add 0 (map cg_size gs')).
  { induction gs' as [|g gs' IH]; intros k Hk; cbn [length seq map fold_right]; [lia|].
    pose proof (Hk O g eq_refl) as H0. replace (k + 0)%nat with k in H0 by lia.
    specialize (IH (S k) (fun i g' E => eq_ind _ (fun n => 0 <= sum_len (at_cluster n l) <= cg_size g') (Hk (S i) g' E) _ (Nat.add_succ_r k i))).
    lia. }
  apply (G gs 0%nat). exact H.
Qed.

Lemma blocks_nonneg w gs : pgeometry gs -> PInv gs w -> forall l, incl l (written w) -> 0 <= blocks l.
Proof.
  intros PG R l H. assert (P : forall x, In x (written w) -> 0 < snd (snd x)).
  { intros (i & e) Hx. pose proof (pi_range gs w R _ Hx) as Hi. destruct (cluster_at gs w i R Hi) as (g & c & E1 & E2).
    destruct (pi_cl gs w R i g c E1 E2) as (live & cl & Rc & P & _).
    pose proof (reach_inv _ (pg_v gs PG g (nth_in_gs gs i g E1)) _ _ _ _ Rc) as I. apply (live_pos (cg_v g) live (i_live _ _ _ _ _ I)).
    eapply Permutation_in; [symmetry; exact P|]. now apply at_in. }
  induction l as [|x l IH]; [cbn; lia|]. change (blocks (x :: l)) with (snd (snd x) + blocks l).
  pose proof (P x (H x (or_introl eq_refl))). specialize (IH (fun y Hy => H y (or_intror Hy))). lia.
Qed.

(** The reported space is that of the blocks that clients hold and of those of the writes that had failed before the pool was last imported. *)
Theorem C79_used gs w : pgeometry gs -> fold_right Z.add 0 (map cg_size gs) < 2^64 -> preach gs w ->
  p_used (w_p w) = blocks (w_held w) + blocks (w_lost0 w).
Proof.
  intros PG S R. apply (preach_inv gs PG) in R. rewrite (pi_used gs w R). apply Z.mod_small.
  pose proof (sum_bound gs w PG R) as B. pose proof (blocks_nonneg w gs PG R) as N. unfold written in *. rewrite !blocks_app in B.
  pose proof (N (w_fly w)) as N1. pose proof (N (w_held w)) as N2. pose proof (N (w_lost w)) as N3. pose proof (N (w_lost0 w)) as N4.
  assert (I : forall l, In l [w_fly w; w_held w; w_lost w; w_lost0 w] -> incl l (w_fly w ++ w_held w ++ w_lost w ++ w_lost0 w)).
  { intros l Hl x Hx. rewrite !in_app_iff. destruct Hl as [<-|[<-|[<-|[<-|[]]]]]; tauto. }
  specialize (N1 (I _ (or_introl eq_refl))). specialize (N2 (I _ (or_intror (or_introl eq_refl)))). specialize (N3 (I _ (or_intror (or_intror (or_introl eq_refl))))).
  specialize (N4 (I _ (or_intror (or_intror (or_intror (or_introl eq_refl)))))). lia.
Qed.

(** Proved part of the claim: the pool reports exactly what its clients hold as long as no write had failed before it was last imported. *)
Theorem C79_used_is_held_partial gs w : pgeometry gs -> fold_right Z.add 0 (map cg_size gs) < 2^64 -> preach gs w ->
  w_lost0 w = [] -> p_used (w_p w) = blocks (w_held w).
Proof. intros PG S R E. rewrite (C79_used gs w PG S R), E. cbn. lia. Qed.

(** * C80: refusing writes *)

(** The device of a cluster as the pool has left it. *)
Definition device (gs : list cgeo) (w : world) (i : nat) (d : Z -> dz) : Prop :=
  exists g, nth_error gs i = Some g /\ dev_run (cg_v g) (fun _ => DEmpty) (at_cluster i (w_tr w)) = Some d.

(** Zone [z] of the device has no room for [n] blocks. *)
Definition no_room (v : vdev) (d : Z -> dz) (n z : Z) : Prop :=
  match d z with DEmpty => False | DFull => True | DOpen wp => snd (v_lim v z) - wp < n end.

Lemma write_fits v c live cl tr space txg z oz x : geometry v -> Inv v c live cl tr -> 0 < space < 2^32 ->
  view (fs c) z = ZOpen oz x -> space <= total x - oalloc oz -> exists c' lba o, write v space txg c = Some (c', WOk lba, o).
Proof.
  intros G I Hs V F. pose proof (i_rep _ _ _ _ _ I) as R.
  destruct (open_case (fs c) R (i_one _ _ _ _ _ I)) as [[On Hno]|(z' & oz' & x' & V' & Oz)]; [exfalso; exact (Hno z oz x V)|].
  destruct (try_allocate_ok (fs c) space z oz x R (i_one _ _ _ _ _ I) V) as (f1 & E1 & C1); [lia|lia|].
  unfold write. rewrite E1. cbn [obind close_zones app]. eauto.
Qed.

(** What a refusal says of the cluster *)
Lemma refused_cluster v c live cl tr n txg c' o : geometry v -> Inv v c live cl tr -> 0 < n < 2^32 -> 0 <= txg < TXG_MAX ->
  (forall z, 0 <= z < v_zones v -> n <= snd (v_lim v z) - fst (v_lim v z)) ->
  write v n txg c = Some (c', WNoSpace, o) -> 0 < v_zones v ->
  (exists z, 0 <= z < v_zones v /\ exists s e, view (fs c) z = ZDead s e) \/ capacity v - n < alloc_space c.
Proof.
  intros G I Hn Ht Hz E Nz.
  destruct (write_inv v G c live cl tr n txg I Hn Ht) as (c2 & r2 & o2 & E2 & _ & W & _). rewrite E in E2. injection E2 as <- <- <-.
  assert (NE : forall z, 0 <= z < v_zones v -> view (fs c) z <> ZEmpty).
  { intros z Rz V. destruct W as (lba & Wl); [eauto|exact Hz|discriminate Wl]. }
  assert (OP : forall z oz x, view (fs c) z = ZOpen oz x -> total x - oalloc oz < n).
  { intros z oz x V. destruct (Z.ltb_spec (total x - oalloc oz) n) as [?|L]; [assumption|exfalso].
    destruct (write_fits v c live cl tr n txg z oz x G I Hn V L) as (c3 & lba & o3 & E3). congruence. }
  destruct (existsb (fun z => match view (fs c) z with ZDead _ _ => true | _ => false end) (zrange 0 (v_zones v))) eqn:X.
  - left. apply existsb_exists in X. destruct X as (z & Hi & Hd). apply in_zrange in Hi. exists z. split; [exact Hi|].
    destruct (view (fs c) z); try discriminate. eauto.
  - right. rewrite (i_alloc _ _ _ _ _ I). unfold capacity.
    assert (ND : forall z, 0 <= z < v_zones v -> forall s e, view (fs c) z <> ZDead s e).
    { intros z Rz s e V. assert (Y : existsb (fun z => match view (fs c) z with ZDead _ _ => true | _ => false end) (zrange 0 (v_zones v)) = true).
      { apply existsb_exists. exists z. split; [now apply in_zrange|]. now rewrite V. }
      congruence. }
    assert (SZ : forall z, 0 <= z < v_zones v -> (forall oz x, view (fs c) z <> ZOpen oz x) -> alloc_v (view (fs c) z) = snd (v_lim v z) - fst (v_lim v z)).
    { intros z Rz No. pose proof (i_zone _ _ _ _ _ I z Rz) as ZI. destruct (view (fs c) z) as [|s e|oz x|x] eqn:V.
      - now destruct (NE z Rz).
      - now destruct (ND z Rz s e).
      - now destruct (No oz x).
      - cbn [alloc_v zone_inv] in *. unfold zstart, zend in ZI. lia. }
    destruct (open_case (fs c) (i_rep _ _ _ _ _ I) (i_one _ _ _ _ _ I)) as [[On Hno]|(z & oz & x & V & Oz)].
    + rewrite (zsum_ext _ _ (fun z => alloc_v (view (fs c) z)) (fun z => snd (v_lim v z) - fst (v_lim v z))); [lia|].
      intros z Rz. apply SZ; [exact Rz|]. intros oz x. apply Hno.
    + assert (Rz : 0 <= z < v_zones v).
      { rewrite <- (i_tot _ _ _ _ _ I). pose proof (view_range (fs c) z ltac:(congruence)). pose proof (r_len _ (i_rep _ _ _ _ _ I)). lia. }
      pose proof (OP z oz x V) as Lz. pose proof (i_zone _ _ _ _ _ I z Rz) as ZI. rewrite V in ZI. cbn [zone_inv] in ZI. unfold zstart, zend in ZI.
      assert (Q : forall j, 0 <= j < v_zones v -> j <> z -> alloc_v (view (fs c) j) = snd (v_lim v j) - fst (v_lim v j)).
      { intros j Rj Nj. apply SZ; [exact Rj|]. intros oz' x' V'. apply Nj. eapply (i_one _ _ _ _ _ I); eauto. }
      assert (D : zsum 0 (v_zones v) (fun j => snd (v_lim v j) - fst (v_lim v j)) - zsum 0 (v_zones v) (fun j => alloc_v (view (fs c) j)) = total x - oalloc oz).
      { rewrite (zsum_split 0 z (v_zones v)) by lia. rewrite (zsum_split 0 z (v_zones v) (fun j => alloc_v (view (fs c) j))) by lia.
        rewrite (zsum_ext 0 z (fun j => alloc_v (view (fs c) j)) (fun j => snd (v_lim v j) - fst (v_lim v j))) by (intros j Rj; apply Q; lia).
        rewrite (zsum_split z (z + 1) (v_zones v)) by lia. rewrite (zsum_split z (z + 1) (v_zones v) (fun j => alloc_v (view (fs c) j))) by lia.
        rewrite (zsum_ext (z + 1) (v_zones v) (fun j => alloc_v (view (fs c) j)) (fun j => snd (v_lim v j) - fst (v_lim v j))) by (intros j Rj; apply Q; lia).
        assert (ONE : forall f, zsum z (z + 1) f = f z). { intros f. unfold zsum. rewrite zrange_cons, zrange_empty by lia. cbn. lia. }
        rewrite !ONE, V. cbn [alloc_v]. lia. }
      lia.
Qed.

(** The fuller a cluster, the less room it has. *)
Lemma full_cluster v c live cl tr n d : geometry v -> Inv v c live cl tr ->
  (forall z, 0 <= z < v_zones v -> n <= snd (v_lim v z) - fst (v_lim v z)) ->
  capacity v - n < alloc_space c -> dev_run v (fun _ => DEmpty) tr = Some d -> forall z, 0 <= z < v_zones v -> no_room v d n z.
Proof.
  intros G I Hz A Dv z Rz. destruct (i_dev _ _ _ _ _ I) as (d' & Dv' & H). rewrite Dv in Dv'. injection Dv' as <-.
  rewrite (i_alloc _ _ _ _ _ I) in A. unfold capacity in A.
  assert (LE : forall j, 0 <= j < v_zones v -> alloc_v (view (fs c) j) <= snd (v_lim v j) - fst (v_lim v j)).
  { intros j Rj. pose proof (i_zone _ _ _ _ _ I j Rj) as ZI. pose proof (Hz j Rj). pose proof (g_size v G j Rj) as GL. destruct (view (fs c) j) as [|s e|oz x|x]; cbn [alloc_v zone_inv] in *; unfold zstart, zend in *; lia. }
  assert (S : forall a b, 0 <= a -> b <= v_zones v -> zsum a b (fun j => alloc_v (view (fs c) j)) <= zsum a b (fun j => snd (v_lim v j) - fst (v_lim v j))).
  { intros a b Ha Hb. apply zsum_le. intros j Rj. apply LE. lia. }
  assert (Az : snd (v_lim v z) - fst (v_lim v z) - n < alloc_v (view (fs c) z)).
  { rewrite (zsum_split 0 z (v_zones v)), (zsum_split z (z + 1) (v_zones v)) in A by lia.
    rewrite (zsum_split 0 z (v_zones v) (fun j => alloc_v (view (fs c) j))), (zsum_split z (z + 1) (v_zones v) (fun j => alloc_v (view (fs c) j))) in A by lia.
    pose proof (S 0 z ltac:(lia) ltac:(lia)). pose proof (S (z + 1) (v_zones v) ltac:(lia) ltac:(lia)).
    assert (ONE : forall f, zsum z (z + 1) f = f z). { intros f. unfold zsum. rewrite zrange_cons, zrange_empty by lia. cbn. lia. }
    rewrite !ONE in A. lia. }
  unfold no_room. rewrite H. pose proof (Hz z Rz). pose proof (i_zone _ _ _ _ _ I z Rz) as ZI.
  destruct (view (fs c) z) as [|s e|oz x|x]; cbn [alloc_v dz_v zone_inv] in *; unfold zstart, zend in *; try exact Logic.I; lia.
Qed.

Lemma fuller ai aj ci cj si sj n : 0 <= ai <= ci -> ci <= si -> 0 <= aj <= cj -> cj <= sj -> ci * sj = cj * si -> 0 < si <= 2^52 -> 0 < sj <= 2^52 ->
  (n = 1 \/ si = sj) -> (rnd64 (IZR ai / IZR si) <= rnd64 (IZR aj / IZR sj))%R -> ci - n < ai -> cj - n < aj.
Proof.
  intros Ai Ci Aj Cj P Si Sj Hn Hr Hi.
  assert (Pi : (0 < IZR si)%R) by (apply IZR_lt; lia). assert (Pj : (0 < IZR sj)%R) by (apply IZR_lt; lia).
  assert (H : 2 ^ 53 * (ai * sj - aj * si) <= si * sj).
  { destruct (Z_le_gt_dec (2 ^ 53 * (ai * sj - aj * si)) (si * sj)) as [?|Hgt]; [assumption|exfalso].
    apply (Rlt_irrefl (rnd64 (IZR ai / IZR si))). eapply Rle_lt_trans; [exact Hr|].
    apply (rnd_distinct 53 1024 eq_refl).
    - apply ratio_range; lia.
    - change (bpow radix2 (- (53))) with (/ IZR (2 ^ 53))%R.
      assert (P53 : (0 < IZR (2 ^ 53))%R) by (apply IZR_lt; reflexivity).
      apply Rmult_lt_reg_r with (IZR (2 ^ 53) * IZR si * IZR sj)%R; [apply Rmult_lt_0_compat; [apply Rmult_lt_0_compat; assumption|assumption]|].
      replace ((IZR aj / IZR sj + / IZR (2 ^ 53)) * (IZR (2 ^ 53) * IZR si * IZR sj))%R with (IZR (2 ^ 53 * (aj * si) + si * sj))%R.
      2: { rewrite plus_IZR, !mult_IZR. field. split; apply Rgt_not_eq; assumption. }
      replace (IZR ai / IZR si * (IZR (2 ^ 53) * IZR si * IZR sj))%R with (IZR (2 ^ 53 * (ai * sj)))%R.
      2: { rewrite !mult_IZR. field. apply Rgt_not_eq; assumption. }
      apply IZR_lt. lia.
    - apply (ratio_range ai si); lia. }
  destruct Hn as [-> | ->].
  - assert (ai = ci) by lia. subst ai. destruct (Z.ltb_spec (cj - 1) aj) as [?|L]; [assumption|exfalso].
    assert (si <= ci * sj - aj * si) by nia. nia.
  - assert (ci = cj) by nia. subst cj. assert (ai <= aj) by nia. lia.
Qed.

Lemma alloc_advance v c live cl tr : Inv v c live cl tr -> alloc_space (fst (advance c)) = alloc_space c.
Proof. intros _. unfold advance. now destruct (reap (fs c)). Qed.
Lemma weights_ext gs : forall cs cs' ds, length cs = length cs' -> (forall i c c', nth_error cs i = Some c -> nth_error cs' i = Some c' -> alloc_space c = alloc_space c') ->
  weights gs cs ds = weights gs cs' ds.
Proof.
  induction gs as [|g gs IH]; intros [|c cs] [|c' cs'] [|d ds] L H; try discriminate L; try reflexivity. cbn [weights]. f_equal.
  - unfold weight. rewrite (H O c c' eq_refl eq_refl). reflexivity.
  - apply IH; [now injection L|]. intros i x y. apply (H (S i)).
Qed.

(** Proved part of the claim "a write is refused only if no cluster has room": the pool is idle, its clusters have the same share of usable space, and the
    write is one block long or the clusters are equally large.  Then a refused write either fits into no zone, or is accepted once the transaction has
    ended. *)
Theorem C80_refused_partial gs w n txg w' : pgeometry gs -> preach gs w -> w_fly w = [] -> w_reads w = [] ->
  (forall g g', In g gs -> In g' gs -> capacity (cg_v g) * cg_size g' = capacity (cg_v g') * cg_size g) ->
  (n = 1 \/ forall g g', In g gs -> In g' gs -> cg_size g = cg_size g') ->
  (forall g z, In g gs -> 0 <= z < v_zones (cg_v g) -> n <= snd (v_lim (cg_v g) z) - fst (v_lim (cg_v g) z)) ->
  plegal gs w (PWrite n txg) -> pstep gs w (PWrite n txg) = Some (w', None) ->
  (forall i g d z, nth_error gs i = Some g -> device gs w i d -> 0 <= z < v_zones (cg_v g) -> no_room (cg_v g) d n z) \/
  (exists w1 w2 x, pstep gs w PAdvance = Some (w1, None) /\ pstep gs w1 (PWrite n txg) = Some (w2, Some x)).
Proof.
  intros PG R F0 R0 Hc Hs Hz (Hn & Ht) E. pose proof (preach_inv gs PG w R) as I.
  destruct (choice gs PG w I) as (i & g & c & dd & Ech & Eg & Ec & Ed & Min).
  destruct (pi_cl gs w I i g c Eg Ec) as (live & cl & Rc & _ & _).
  pose proof (pg_v gs PG g (nth_in_gs gs i g Eg)) as G. pose proof (reach_inv _ G _ _ _ _ Rc) as Ic.
  assert (D0 : forall j, (j < length gs)%nat -> nth_error (p_depth (w_p w)) j = Some 0).
  { intros j Hj. rewrite (pi_depth gs w I j Hj). unfold depth_of. rewrite F0, R0. reflexivity. }
  assert (Ew : exists c' o, write (cg_v g) n txg c = Some (c', WNoSpace, o)).
  { destruct w as [p fly held lost lost0 reads clean tr]. cbn [pstep w_p] in *. unfold pool_write in E. rewrite Ech in E. cbn [obind] in E. rewrite Eg in E. cbn [obind] in E.
    rewrite Ec in E. cbn [obind] in E. destruct (write (cg_v g) n txg c) as [((c' & r) & o)|]; [|discriminate E]. cbn [obind] in E.
    destruct r as [lba|]; [discriminate E|eauto]. }
  destruct Ew as (c' & o & Ew).
  assert (Hcap : 0 <= capacity (cg_v g)) by (pose proof (reach_sane _ _ _ _ _ G Rc); lia).
  destruct (Z_le_gt_dec (v_zones (cg_v g)) 0) as [Z0|Zp].
  { (* no zones: no capacity anywhere *)
    left. intros j g' d z Eg' (g2 & Eg2 & Dv) Rz. exfalso. rewrite Eg' in Eg2. injection Eg2 as <-.
    pose proof (Hc g g' (nth_in_gs gs i g Eg) (nth_in_gs gs j g' Eg')) as P.
    assert (capacity (cg_v g) = 0) by (unfold capacity, zsum; rewrite zrange_empty by lia; reflexivity).
    pose proof (pg_size gs PG g (nth_in_gs gs i g Eg)). assert (C0 : capacity (cg_v g') = 0) by nia.
    pose proof (g_size _ (pg_v gs PG g' (nth_in_gs gs j g' Eg'))) as GL. unfold capacity in C0.
    rewrite (zsum_split 0 z (v_zones (cg_v g'))), (zsum_split z (z + 1) (v_zones (cg_v g'))) in C0 by lia.
    assert (ONE : forall f, zsum z (z + 1) f = f z). { intros f. unfold zsum. rewrite zrange_cons, zrange_empty by lia. cbn. lia. }
    rewrite ONE in C0. pose proof (GL z Rz).
    assert (NN : forall a b, 0 <= a -> b <= v_zones (cg_v g') -> zsum a b (fun _ => 0) <= zsum a b (fun z => snd (v_lim (cg_v g') z) - fst (v_lim (cg_v g') z))).
    { intros a b Ha Hb. apply zsum_le. intros k Hk. pose proof (GL k ltac:(lia)). lia. }
    pose proof (NN 0 z ltac:(lia) ltac:(lia)). pose proof (NN (z + 1) (v_zones (cg_v g')) ltac:(lia) ltac:(lia)).
    assert (Z0' : forall a b, zsum a b (fun _ => 0) = 0). { intros a b. unfold zsum. induction (zrange a b); cbn; [reflexivity|assumption]. }
    rewrite !Z0' in *. lia. }
  destruct (refused_cluster (cg_v g) c live cl _ n txg c' o G Ic Hn Ht (fun z => Hz g z (nth_in_gs gs i g Eg)) Ew) as [(z & Rz & s & e & V)|A]; [lia| |].
  - right. destruct (pstep_inv gs PG w PAdvance I Logic.I) as (w1 & r1 & E1 & I1).
    assert (r1 = None) as ->.
    { destruct w as [p fly held lost lost0 reads clean tr]. cbn [pstep] in E1. destruct (pool_advance gs p) as [(p1 & o1)|]; [|discriminate E1]. cbn [obind] in E1. now injection E1. }
    exists w1. destruct (pstep_inv gs PG w1 (PWrite n txg) I1 (conj Hn Ht)) as (w2 & r2 & E2 & _). exists w2.
    enough (exists x, r2 = Some x) as (x & ->) by (exists x; split; assumption).
    (* the state after the end of the transaction *)
    destruct w as [p fly held lost lost0 reads clean tr]. cbn [pstep w_p w_tr w_fly w_reads] in *. unfold pool_advance in E1.
    destruct (each_spec (fun _ c => Some (advance c)) gs (p_cl p) 0 (pi_len gs _ I)) as (cs1 & o1 & Ee & L1 & H1 & _); [intros; discriminate|].
    rewrite Ee in E1. cbn [obind] in E1. injection E1 as <-.
    destruct (H1 i g c Eg Ec) as (c1 & oo & Ea & Ec1 & _). injection Ea as Ea.
    assert (W : weights gs cs1 (p_depth p) = weights gs (p_cl p) (p_depth p)).
    { apply weights_ext; [rewrite L1; symmetry; apply (pi_len gs _ I)|]. intros k x y Ex Ey.
      destruct (cluster_at gs _ k I) as (gk & ck & Egk & Eck); [rewrite <- L1; apply nth_error_Some; congruence|]. cbn [w_p] in Eck. rewrite Ey in Eck. injection Eck as <-.
      destruct (H1 k gk y Egk Ey) as (y1 & oy & Ay & Ny & _). rewrite Ex in Ny. injection Ny as <-. injection Ay as Ay.
      unfold advance in Ay. destruct (reap (fs y)). now injection Ay as <- _. }
    cbn [pstep] in E2. unfold pool_write in E2. cbn [p_cl p_depth p_used] in E2. rewrite W, Ech in E2. cbn [obind] in E2. rewrite Eg in E2. cbn [obind] in E2.
    rewrite Ec1 in E2. cbn [obind] in E2.
    pose proof (advance_inv (cg_v g) c live cl _ Ic) as AI. cbv zeta in AI. rewrite Ea in AI. cbn [fst snd] in AI. destruct AI as (Ic1 & _ & Vw).
    destruct (write_inv (cg_v g) G c1 live false _ n txg Ic1 Hn Ht) as (c2 & rr & o2 & Ew2 & _ & Wr & _).
    destruct Wr as (lba & ->). { exists z. split; [exact Rz|]. rewrite Vw, V. reflexivity. } { intros k Rk. apply (Hz g k (nth_in_gs gs i g Eg) Rk). }
    rewrite Ew2 in E2. cbn [obind] in E2. injection E2 as _ <-. eauto.
  - left. intros j g' d z Eg' (g2 & Eg2 & Dv) Rz. rewrite Eg' in Eg2. injection Eg2 as <-.
    destruct (cluster_at gs w j I) as (g2 & cj & Eg2 & Ecj); [apply nth_lt; eauto|]. rewrite Eg' in Eg2. injection Eg2 as <-.
    destruct (pi_cl gs w I j g' cj Eg' Ecj) as (livej & clj & Rj & _ & _).
    pose proof (pg_v gs PG g' (nth_in_gs gs j g' Eg')) as G'. pose proof (reach_inv _ G' _ _ _ _ Rj) as Ij.
    apply (full_cluster (cg_v g') cj livej clj _ n d G' Ij (fun z => Hz g' z (nth_in_gs gs j g' Eg'))); [|exact Dv|exact Rz].
    pose proof (D0 j (proj2 (nth_lt gs j) (ex_intro _ g' Eg'))) as Dj. pose proof (D0 i (proj2 (nth_lt gs i) (ex_intro _ g Eg))) as Di.
    rewrite Ed in Di. injection Di as ->. pose proof (Min j g' cj 0 Eg' Ecj Dj) as M.
    pose proof (pg_size gs PG g (nth_in_gs gs i g Eg)) as Si. pose proof (pg_size gs PG g' (nth_in_gs gs j g' Eg')) as Sj.
    pose proof (pg_opt gs PG g (nth_in_gs gs i g Eg)) as Oi. pose proof (pg_opt gs PG g' (nth_in_gs gs j g' Eg')) as Oj.
    pose proof (alloc_range gs PG w i g c I Eg Ec) as Ai. pose proof (alloc_range gs PG w j g' cj I Eg' Ecj) as Aj.
    rewrite (proj2 (weight_real g c 0 Ai (proj1 Si) Oi ltac:(lia)) eq_refl) in M.
    rewrite (proj2 (weight_real g' cj 0 Aj (proj1 Sj) Oj ltac:(lia)) eq_refl) in M.
    pose proof (reach_sane _ _ _ _ _ G Rc). pose proof (reach_sane _ _ _ _ _ G' Rj).
    apply (fuller (alloc_space c) (alloc_space cj) (capacity (cg_v g)) (capacity (cg_v g')) (cg_size g) (cg_size g') n); try tauto; try lia.
    + apply Hc; eapply nth_in_gs; eassumption.
    + destruct Hs as [->|Hs]; [now left|right]. apply Hs; eapply nth_in_gs; eassumption.
Qed.

(** ** Concrete pools *)

(** [k] zones of ten blocks *)
Definition vk (k : Z) : vdev :=
  mkvdev k (fun z => (10 * z, 10 * z + 10)) (fun l => if (0 <=? l) && (l <? 10 * k) then Some (l / 10) else None) 2.
Lemma vk_geometry k : 0 <= k -> geometry (vk k).
Proof.
  intros K. split; cbn [vk v_zones v_lim v_zone_of v_stripe fst snd]; try lia.
  - intros z Hz. unfold U32MAX. lia.
  - intros lba z. destruct ((0 <=? lba) && (lba <? 10 * k)) eqn:B.
    + split.
      * intros [= H]. apply div10 in H. lia.
      * intros [H1 H2]. f_equal. now apply div10.
    + split; [discriminate|]. intros [H1 H2]. lia.
Qed.

Definition plegalb (gs : list cgeo) (w : world) (e : pev) : bool :=
  match e with
  | PWrite space txg => (0 <? space) && (space <? 2^32) && (0 <=? txg) && (txg <? TXG_MAX)
  | PDone k _ => (k <? length (w_fly w))%nat
  | PRead i => (i <? length gs)%nat
  | PReadDone k => (k <? length (w_reads w))%nat
  | PFree x => existsb (pext_eqb x) (w_held w)
  | PAdvance | PSync => true
  | PRemount => w_clean w && match w_fly w with [] => true | _ => false end && match w_reads w with [] => true | _ => false end
  end.
Fixpoint prun (gs : list cgeo) (es : list pev) (w : world) : option world :=
  match es with [] => Some w | e :: r => if plegalb gs w e then match pstep gs w e with Some (w, _) => prun gs r w | None => None end else None end.
Definition start (gs : list cgeo) : world := World (pool_create gs) [] [] [] [] [] false [].
Lemma plegalb_ok gs w e : plegalb gs w e = true -> plegal gs w e.
Proof.
  destruct e as [s t|k ok|i|k|x| | |]; cbn [plegalb plegal]; try tauto; try (intros H; apply Nat.ltb_lt in H; exact H).
  - lia.
  - intros H. apply existsb_exists in H. destruct H as ((i & a & b) & Hi & E). destruct x as (j & a' & b'). unfold pext_eqb, extent_eqb in E. cbn [fst snd] in E.
    apply andb_prop in E. destruct E as (E1 & E2). apply Nat.eqb_eq in E1. apply andb_prop in E2. destruct E2 as (E2 & E3). apply Z.eqb_eq in E2, E3. now subst.
  - destruct (w_clean w), (w_fly w), (w_reads w); cbn; intros H; try discriminate; auto.
Qed.
Lemma prun_reach gs es : forall w w', preach gs w -> prun gs es w = Some w' -> preach gs w'.
Proof.
  induction es as [|e es IH]; intros w w' R E; cbn [prun] in E; [now injection E as <-|].
  destruct (plegalb gs w e) eqn:L; [|discriminate]. destruct (pstep gs w e) as [(w1 & r)|] eqn:S; [|discriminate].
  exact (IH w1 w' (preach_step gs w e w1 r R (plegalb_ok gs w e L) S) E).
Qed.

Definition twins : list cgeo := [CGeo (vk 5) 50 10; CGeo (vk 5) 50 10].
Definition put (n : Z) (k : nat) : list pev := concat (repeat [PWrite n 1; PDone 0 true] k).
Definition busy_history : list pev :=
  put 10 10 ++ [PFree (1%nat, (0, 10)); PFree (1%nat, (10, 10)); PFree (1%nat, (20, 10)); PAdvance] ++ repeat (PRead 1) 30.
Definition unlike : list cgeo := [CGeo (vk 5) 100 10; CGeo (vk 5) 50 10].
Definition sizes : list cgeo := [CGeo (vk 2) 20 10; CGeo (vk 5) 50 10].


(** The write of [n] blocks is refused after the history, and again after the end of the transaction if [again], although zone [z] of cluster [i] is empty. *)
Definition refused (gs : list cgeo) (es : list pev) (n : Z) (i : nat) (z : Z) : bool :=
  match prun gs es (start gs), nth_error gs i with
  | Some w, Some g =>
      match pstep gs w (PWrite n 1), dev_run (cg_v g) (fun _ => DEmpty) (at_cluster i (w_tr w)) with
      | Some (_, None), Some d => match d z with DEmpty => true | _ => false end
      | _, _ => false
      end
  | _, _ => false
  end.
Lemma refused_ok gs es n i z : refused gs es n i z = true ->
  exists w w' d, prun gs es (start gs) = Some w /\ preach gs w /\ pstep gs w (PWrite n 1) = Some (w', None) /\ device gs w i d /\ d z = DEmpty.
Proof.
  unfold refused. destruct (prun gs es (start gs)) as [w|] eqn:E; [|discriminate]. destruct (nth_error gs i) as [g|] eqn:Eg; [|discriminate].
  destruct (pstep gs w (PWrite n 1)) as [(w' & [r|])|] eqn:S; try discriminate.
  destruct (dev_run (cg_v g) (fun _ => DEmpty) (at_cluster i (w_tr w))) as [d|] eqn:D; [|discriminate].
  destruct (d z) eqn:Dz; try discriminate. intros _. exists w, w', d. repeat split; auto.
  - eapply prun_reach; [|exact E]. apply preach_init.
  - exists g. auto.
Qed.
Lemma prun_app gs a : forall b w, prun gs (a ++ b) w = match prun gs a w with Some w' => prun gs b w' | None => None end.
Proof.
  induction a as [|e a IH]; intros b w; [reflexivity|]. cbn [app prun]. destruct (plegalb gs w e); [|reflexivity].
  destruct (pstep gs w e) as [(w1 & r)|]; [apply IH|reflexivity].
Qed.
(** The same, now and after the end of the transaction *)
Lemma refused_twice gs es n i z : refused gs es n i z = true -> refused gs (es ++ [PAdvance]) n i z = true ->
  exists w w' d w1 w2, prun gs es (start gs) = Some w /\ preach gs w /\ pstep gs w (PWrite n 1) = Some (w', None) /\ device gs w i d /\ d z = DEmpty /\
    pstep gs w PAdvance = Some (w1, None) /\ pstep gs w1 (PWrite n 1) = Some (w2, None).
Proof.
  intros H1 H2. destruct (refused_ok gs es n i z H1) as (w & w' & d & E & R & S & D & Dz).
  destruct (refused_ok gs _ n i z H2) as (w1 & w2 & d' & E' & _ & S' & _).
  rewrite prun_app, E in E'. cbn [prun plegalb] in E'. destruct (pstep gs w PAdvance) as [(x & r)|] eqn:A; [|discriminate]. injection E' as ->.
  assert (r = None) as ->. { destruct w as [p fly held lost lost0 reads clean tr]. cbn [pstep] in A. destruct (pool_advance gs p) as [(p1 & o1)|]; [|discriminate A]. cbn [obind] in A. now injection A. }
  exists w, w', d, w1, w2. auto 10.
Qed.

Lemma pg2 k1 s1 k2 s2 : 0 <= k1 -> 0 <= k2 -> capacity (vk k1) <= s1 -> capacity (vk k2) <= s2 -> 0 < s1 <= 2 ^ 52 -> 0 < s2 <= 2 ^ 52 ->
  pgeometry [CGeo (vk k1) s1 10; CGeo (vk k2) s2 10].
Proof.
  intros. split; [discriminate| | |].
  - intros g [<-|[<-|[]]]; now apply vk_geometry.
  - intros g [<-|[<-|[]]]; cbn [cg_v cg_size]; auto.
  - intros g [<-|[<-|[]]]; cbn [cg_opt]; lia.
Qed.
Lemma twins_geometry : pgeometry twins. Proof. apply pg2; try lia; apply Z.leb_le; reflexivity. Qed.

(** The full claim is false.  Without idleness: a full cluster is preferred to one with much room and many reads. *)
Theorem C80_busy_refuted : exists gs w n w' i d z w1 w2, pgeometry gs /\ preach gs w /\ w_fly w = [] /\
  (forall g g', In g gs -> In g' gs -> g = g') /\ (forall g z, In g gs -> 0 <= z < v_zones (cg_v g) -> n <= snd (v_lim (cg_v g) z) - fst (v_lim (cg_v g) z)) /\
  plegal gs w (PWrite n 1) /\ pstep gs w (PWrite n 1) = Some (w', None) /\ device gs w i d /\ d z = DEmpty /\
  pstep gs w PAdvance = Some (w1, None) /\ pstep gs w1 (PWrite n 1) = Some (w2, None).
Proof.
  destruct (refused_twice twins busy_history 10 1 0) as (w & w' & d & w1 & w2 & E & R & S & D & Dz & A & S1); [vm_compute; reflexivity|vm_compute; reflexivity|].
  exists twins, w, 10, w', 1%nat, d, 0, w1, w2. split; [exact twins_geometry|]. split; [exact R|]. split.
  { assert (X : option_map w_fly (prun twins busy_history (start twins)) = Some []) by (vm_compute; reflexivity). rewrite E in X. now injection X. }
  split; [intros g g' [<-|[<-|[]]] [<-|[<-|[]]]; reflexivity|]. split; [intros g y [<-|[<-|[]]] _; cbn [cg_v vk v_lim fst snd]; lia|].
  split; [split; [lia|unfold TXG_MAX; lia]|]. auto 10.
Qed.

(** Without like shares of usable space: a full cluster seems emptier than one with room. *)
Theorem C80_shares_refuted : exists gs w n w' i d z w1 w2, pgeometry gs /\ preach gs w /\ w_fly w = [] /\ w_reads w = [] /\
  (forall g z, In g gs -> 0 <= z < v_zones (cg_v g) -> n <= snd (v_lim (cg_v g) z) - fst (v_lim (cg_v g) z)) /\ n = 1 /\
  plegal gs w (PWrite n 1) /\ pstep gs w (PWrite n 1) = Some (w', None) /\ device gs w i d /\ d z = DEmpty /\
  pstep gs w PAdvance = Some (w1, None) /\ pstep gs w1 (PWrite n 1) = Some (w2, None).
Proof.
  destruct (refused_twice unlike (put 10 8) 1 1 4) as (w & w' & d & w1 & w2 & E & R & S & D & Dz & A & S1); [vm_compute; reflexivity|vm_compute; reflexivity|].
  exists unlike, w, 1, w', 1%nat, d, 4, w1, w2. split; [apply pg2; try lia; apply Z.leb_le; reflexivity|]. split; [exact R|].
  assert (X : option_map (fun w => (w_fly w, w_reads w)) (prun unlike (put 10 8) (start unlike)) = Some ([], [])) by (vm_compute; reflexivity). rewrite E in X. injection X as X1 X2.
  split; [exact X1|]. split; [exact X2|].
  split; [intros g y [<-|[<-|[]]] _; cbn [cg_v vk v_lim fst snd]; lia|]. split; [reflexivity|].
  split; [split; [lia|unfold TXG_MAX; lia]|]. auto 10.
Qed.

(** With unequal sizes and a longer write: the rest of a small cluster is too short. *)
Theorem C80_sizes_refuted : exists gs w n w' i d z w1 w2, pgeometry gs /\ preach gs w /\ w_fly w = [] /\ w_reads w = [] /\
  (forall g g', In g gs -> In g' gs -> capacity (cg_v g) * cg_size g' = capacity (cg_v g') * cg_size g) /\
  (forall g z, In g gs -> 0 <= z < v_zones (cg_v g) -> n <= snd (v_lim (cg_v g) z) - fst (v_lim (cg_v g) z)) /\
  plegal gs w (PWrite n 1) /\ pstep gs w (PWrite n 1) = Some (w', None) /\ device gs w i d /\ d z = DEmpty /\
  pstep gs w PAdvance = Some (w1, None) /\ pstep gs w1 (PWrite n 1) = Some (w2, None).
Proof.
  destruct (refused_twice sizes (put 10 4 ++ put 4 1 ++ put 10 1) 8 1 4) as (w & w' & d & w1 & w2 & E & R & S & D & Dz & A & S1); [vm_compute; reflexivity|vm_compute; reflexivity|].
  exists sizes, w, 8, w', 1%nat, d, 4, w1, w2. split; [apply pg2; try lia; apply Z.leb_le; reflexivity|]. split; [exact R|].
  assert (X : option_map (fun w => (w_fly w, w_reads w)) (prun sizes (put 10 4 ++ put 4 1 ++ put 10 1) (start sizes)) = Some ([], [])) by (vm_compute; reflexivity). rewrite E in X. injection X as X1 X2.
  split; [exact X1|]. split; [exact X2|].
  split; [intros g g' [<-|[<-|[]]] [<-|[<-|[]]]; reflexivity|].
  split; [intros g y [<-|[<-|[]]] _; cbn [cg_v vk v_lim fst snd]; lia|].
  split; [split; [lia|unfold TXG_MAX; lia]|]. auto 10.
Qed.

(** The end of the transaction has to be waited for: a cluster whose zones are all freed but not yet erased is preferred to one with room. *)
Theorem C80_before_erasure_refuted : exists gs w n w' i d z, pgeometry gs /\ preach gs w /\ w_fly w = [] /\ w_reads w = [] /\
  (forall g g', In g gs -> In g' gs -> g = g') /\ (forall g z, In g gs -> 0 <= z < v_zones (cg_v g) -> n <= snd (v_lim (cg_v g) z) - fst (v_lim (cg_v g) z)) /\
  plegal gs w (PWrite n 1) /\ pstep gs w (PWrite n 1) = Some (w', None) /\ device gs w i d /\ d z = DEmpty.
Proof.
  set (h := put 10 8 ++ put 10 1 ++ [PFree (0%nat, (0, 10)); PFree (0%nat, (10, 10)); PFree (0%nat, (20, 10)); PFree (0%nat, (30, 10))]).
  destruct (refused_ok twins h 10 1 4) as (w & w' & d & E & R & S & D & Dz); [vm_compute; reflexivity|].
  exists twins, w, 10, w', 1%nat, d, 4. split; [exact twins_geometry|]. split; [exact R|].
  assert (X : option_map (fun w => (w_fly w, w_reads w)) (prun twins h (start twins)) = Some ([], [])) by (vm_compute; reflexivity). rewrite E in X. injection X as X1 X2.
  split; [exact X1|]. split; [exact X2|].
  split; [intros g g' [<-|[<-|[]]] [<-|[<-|[]]]; reflexivity|]. split; [intros g y [<-|[<-|[]]] _; cbn [cg_v vk v_lim fst snd]; lia|].
  split; [split; [lia|unfold TXG_MAX; lia]|]. auto.
Qed.

(** A full pool meets the hypotheses of [C80_refused_partial]. *)
Example C80_example : exists w w', pgeometry twins /\ preach twins w /\ w_fly w = [] /\ w_reads w = [] /\
  (forall g g', In g twins -> In g' twins -> capacity (cg_v g) * cg_size g' = capacity (cg_v g') * cg_size g) /\
  (forall g g', In g twins -> In g' twins -> cg_size g = cg_size g') /\
  (forall g z, In g twins -> 0 <= z < v_zones (cg_v g) -> 8 <= snd (v_lim (cg_v g) z) - fst (v_lim (cg_v g) z)) /\
  plegal twins w (PWrite 8 1) /\ pstep twins w (PWrite 8 1) = Some (w', None).
Proof.
  destruct (prun twins (put 10 10) (start twins)) as [w|] eqn:E; [|vm_compute in E; discriminate].
  assert (X : match prun twins (put 10 10) (start twins) with Some w => option_map snd (pstep twins w (PWrite 8 1)) | None => None end = Some None) by (vm_compute; reflexivity).
  assert (Y : option_map (fun w => (w_fly w, w_reads w)) (prun twins (put 10 10) (start twins)) = Some ([], [])) by (vm_compute; reflexivity).
  rewrite E in X, Y. injection Y as Y1 Y2. destruct (pstep twins w (PWrite 8 1)) as [(w' & [r|])|] eqn:S; try discriminate X.
  exists w, w'. split; [exact twins_geometry|]. split; [eapply prun_reach; [|exact E]; apply preach_init|]. split; [exact Y1|]. split; [exact Y2|].
  split; [intros g g' [<-|[<-|[]]] [<-|[<-|[]]]; reflexivity|]. split; [intros g g' [<-|[<-|[]]] [<-|[<-|[]]]; reflexivity|].
  split; [intros g z [<-|[<-|[]]] _; cbn [cg_v vk v_lim fst snd]; lia|]. split; [split; [lia|unfold TXG_MAX; lia]|exact S].
Qed.

(** The full claim of C79 is false: the blocks of a write that failed are counted as used after the pool is imported again. *)
Definition lost_history : list pev := put 10 1 ++ [PWrite 7 1; PDone 0 false; PSync; PRemount].
Theorem C79_failed_write_refuted : exists gs w, pgeometry gs /\ preach gs w /\ w_fly w = [] /\ p_used (w_p w) <> blocks (w_held w).
Proof.
  destruct (prun twins lost_history (start twins)) as [w|] eqn:E; [|vm_compute in E; discriminate].
  assert (Y : option_map (fun w => (w_fly w, p_used (w_p w), blocks (w_held w))) (prun twins lost_history (start twins)) = Some ([], 17, 10)) by (vm_compute; reflexivity).
  rewrite E in Y. injection Y as Y1 Y2 Y3. exists twins, w. split; [exact twins_geometry|]. split; [eapply prun_reach; [|exact E]; apply preach_init|].
  split; [exact Y1|]. rewrite Y2, Y3. discriminate.
Qed.

(** A history with writes, failed writes, reads, frees, the end of a transaction and an import meets the hypotheses of C79. *)
Definition c79_history : list pev :=
  put 7 4 ++ [PWrite 5 1; PWrite 6 2; PDone 1 true; PRead 1; PDone 0 true; PFree (1%nat, (0, 7)); PReadDone 0; PAdvance; PSync; PRemount; PWrite 3 3].
Example C79_example : exists w, pgeometry twins /\ fold_right Z.add 0 (map cg_size twins) < 2^64 /\ preach twins w /\ w_lost0 w = [] /\
  p_used (w_p w) = 32 /\ written w = [(1%nat, (26, 3)); (1%nat, (20, 6)); (0%nat, (20, 5)); (1%nat, (10, 7)); (0%nat, (10, 7)); (0%nat, (0, 7))] /\ plegal twins w (PFree (0%nat, (20, 5))).
Proof.
  destruct (prun twins c79_history (start twins)) as [w|] eqn:E; [|vm_compute in E; discriminate].
  assert (Y : option_map (fun w => (p_used (w_p w), written w, w_lost0 w, w_held w)) (prun twins c79_history (start twins)) =
    Some (32, [(1%nat, (26, 3)); (1%nat, (20, 6)); (0%nat, (20, 5)); (1%nat, (10, 7)); (0%nat, (10, 7)); (0%nat, (0, 7))], [],
             [(1%nat, (20, 6)); (0%nat, (20, 5)); (1%nat, (10, 7)); (0%nat, (10, 7)); (0%nat, (0, 7))])) by (vm_compute; reflexivity).
  rewrite E in Y. injection Y as Y1 Y2 Y3 Y4. exists w. split; [exact twins_geometry|]. split; [reflexivity|]. split; [eapply prun_reach; [|exact E]; apply preach_init|].
  split; [exact Y3|]. split; [exact Y1|]. split; [exact Y2|]. cbn [plegal]. rewrite Y4. cbn. tauto.
Qed.

Print Assumptions C79_never_panics.
Print Assumptions C79_extents_disjoint.
Print Assumptions C79_used.
Print Assumptions C79_used_is_held_partial.
Print Assumptions C79_failed_write_refuted.
Print Assumptions C80_refused_partial.
Print Assumptions C80_busy_refuted.
Print Assumptions C80_shares_refuted.
Print Assumptions C80_sizes_refuted.
Print Assumptions C80_before_erasure_refuted.
