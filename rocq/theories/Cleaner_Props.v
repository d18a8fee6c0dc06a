(** C81 and C82: listing the closed zones of a pool and choosing those to clean. *)
From Verif Require Import Common ZMap FSM_Model FSM_Spec FSM_Inv FSM_Proofs FSM_Props Float_Model Pool_Model Pool_Spec Pool_Float Pool_Proofs Pool_Props.
From Coq Require Import Permutation Sorted Reals Lra.
From Flocq Require Import Core BinarySingleNaN.
Open Scope Z_scope.

(** * C81: the closed zones *)

(** Number of blocks that are written in zone [z] of cluster [i] and not freed *)
Definition blocks_in (w : world) (i : nat) (g : cgeo) (z : Z) : Z :=
  blocks (filter (fun x => Nat.eqb (fst x) i && (fst (v_lim (cg_v g) z) <=? fst (snd x)) && (fst (snd x) <? snd (v_lim (cg_v g) z))) (written w)).

(** Zone [z] of cluster [i] is full, and the end of the transaction does not erase it. *)
Definition stays_full (gs : list cgeo) (w : world) (i : nat) (z : Z) : Prop :=
  exists w1 d d1, pstep gs w PAdvance = Some (w1, None) /\ device gs w i d /\ device gs w1 i d1 /\ d z = DFull /\ d1 z = DFull.

Definition before (a b : nat * cz) : Prop := (fst a < fst b)%nat \/ fst a = fst b /\ cz_id (snd a) < cz_id (snd b).

(** ** What the iterator yields *)

Definition zinfo (v : vdev) (c : cluster) (z : Z) : cz :=
  match lget (zones (fs c)) z with Some x => CZ z (fst (v_lim v z)) (freed x) (total x) (ts x) (te x) | None => CZ z 0 0 0 0 0 end.
Definition czs (v : vdev) (c : cluster) (s : Z) : list cz := map (zinfo v c) (filter (is_closed (fs c)) (zrange s (zlen (zones (fs c))))).

Lemma find_filter (P : Z -> bool) hi : forall n lo, (Z.to_nat (hi - lo) <= n)%nat ->
  match find P (zrange lo hi) with
  | None => filter P (zrange lo hi) = []
  | Some z => lo <= z < hi /\ P z = true /\ filter P (zrange lo hi) = z :: filter P (zrange (z + 1) hi)
  end.
Proof.
  induction n as [|n IH]; intros lo H.
  - rewrite zrange_empty by lia. reflexivity.
  - destruct (Z.ltb_spec lo hi) as [L|L]; [|rewrite zrange_empty by lia; reflexivity]. rewrite (zrange_cons lo hi L). cbn [find filter].
    destruct (P lo) eqn:E.
    + repeat split; [lia|lia|exact E].
    + specialize (IH (lo + 1) ltac:(lia)). destruct (find P (zrange (lo + 1) hi)) as [z|]; [|exact IH]. repeat split; try tauto; lia.
Qed.

Lemma find_closed_spec v c s : 0 <= s -> match find_closed v c s with
  | None => czs v c s = []
  | Some x => czs v c s = x :: czs v c (cz_id x + 1) /\ 0 <= cz_id x
  end.
Proof.
  intros Hs. unfold find_closed, czs. pose proof (find_filter (is_closed (fs c)) (zlen (zones (fs c))) _ s (le_n _)) as F.
  destruct (find (is_closed (fs c)) (zrange s (zlen (zones (fs c))))) as [z|]; cbn [obind].
  - destruct F as (Rz & _ & F). destruct (lget (zones (fs c)) z) as [x|] eqn:G.
    + cbn [obind cz_id]. rewrite F. cbn [map]. split; [|lia]. f_equal. unfold zinfo. now rewrite G.
    + exfalso. destruct (lget_some (zones (fs c)) z ltac:(lia)) as (x & X). congruence.
  - now rewrite F.
Qed.

(** What is still to come when the iterator stands at zone [z] of the first of these clusters *)
Fixpoint expected (i : nat) (gs : list cgeo) (cs : list cluster) (z : Z) : list (nat * cz) :=
  match gs, cs with
  | g :: gs, c :: cs => map (pair i) (czs (cg_v g) c z) ++ expected (S i) gs cs 0
  | _, _ => []
  end.

Lemma skipn_nth {A} (l : list A) : forall i x, nth_error l i = Some x -> skipn i l = x :: skipn (S i) l.
Proof. induction l as [|y l IH]; intros [|i] x H; try discriminate H; cbn in *; [now injection H as ->|]. now apply IH. Qed.
Lemma expected_at gs cs i g c z : nth_error gs i = Some g -> nth_error cs i = Some c ->
  expected i (skipn i gs) (skipn i cs) z = map (pair i) (czs (cg_v g) c z) ++ expected (S i) (skipn (S i) gs) (skipn (S i) cs) 0.
Proof. intros E1 E2. rewrite (skipn_nth gs i g E1), (skipn_nth cs i c E2). reflexivity. Qed.

Section Listing.
Context (gs : list cgeo) (p : pool) (L : length (p_cl p) = length gs).
Notation exp i z := (expected i (skipn i gs) (skipn i (p_cl p)) z).

Lemma next_spec : forall k i z, (i < length gs)%nat -> (length gs - i <= k)%nat -> 0 <= z ->
  exists r st, lcz_next gs k p i z = Some (r, st) /\
    match r with
    | None => exp i z = []
    | Some (j, x) => (j < length gs)%nat /\ 0 <= cz_id x /\ st = (j, cz_id x + 1) /\ exp i z = (j, x) :: exp j (cz_id x + 1)
    end.
Proof.
  induction k as [|k IH]; intros i z Hi Hk Hz; [lia|].
  destruct (nth_error gs i) as [g|] eqn:E1; [|apply nth_error_None in E1; lia].
  destruct (nth_error (p_cl p) i) as [c|] eqn:E2; [|apply nth_error_None in E2; lia].
  cbn [lcz_next]. rewrite E1. cbn [obind]. rewrite E2. cbn [obind]. pose proof (find_closed_spec (cg_v g) c z Hz) as F.
  destruct (find_closed (cg_v g) c z) as [x|].
  - destruct F as (F & Hx). exists (Some (i, x)), (i, cz_id x + 1). split; [reflexivity|]. split; [exact Hi|]. split; [exact Hx|]. split; [reflexivity|].
    rewrite !(expected_at gs (p_cl p) i g c) by assumption. rewrite F. reflexivity.
  - unfold zlen. rewrite L. destruct (Z.ltb_spec (Z.of_nat i) (Z.of_nat (length gs) - 1)) as [Lt|Ge].
    + destruct (IH (S i) 0) as (r & st & E & H); [lia|lia|lia|]. exists r, st. split; [exact E|].
      rewrite (expected_at gs (p_cl p) i g c z E1 E2), F. exact H.
    + exists None, (i, z). split; [reflexivity|]. rewrite (expected_at gs (p_cl p) i g c z E1 E2), F. cbn [map app].
      rewrite (skipn_all2 gs) by lia. reflexivity.
Qed.

Lemma all_spec : forall k i z, (i < length gs)%nat -> (length gs + length (exp i z) <= k)%nat -> 0 <= z -> lcz_all gs k p i z = Some (exp i z).
Proof.
  induction k as [|k IH]; intros i z Hi Hk Hz; [lia|]. cbn [lcz_all].
  destruct (next_spec (S k) i z Hi ltac:(lia) Hz) as (r & st & E & H). rewrite E. cbn [obind]. destruct r as [(j & x)|].
  - destruct H as (Hj & Hx & -> & X). cbn [fst snd]. rewrite X in Hk |- *. cbn [length] in Hk. rewrite IH by lia. reflexivity.
  - now rewrite H.
Qed.
End Listing.

(** ** What is expected *)

Lemma expected_in gs : forall cs k z j x, In (j, x) (expected k gs cs z) <->
  exists i g c, j = (k + i)%nat /\ nth_error gs i = Some g /\ nth_error cs i = Some c /\ In x (czs (cg_v g) c (if (i =? 0)%nat then z else 0)).
Proof.
  induction gs as [|g gs IH]; intros [|c cs] k z j x; cbn [expected].
  - split; [intros []|intros (i & ? & ? & _ & E & _); now destruct i].
  - split; [intros []|intros (i & ? & ? & _ & E & _); now destruct i].
  - split; [intros []|intros (i & ? & ? & _ & _ & E & _); now destruct i].
  - rewrite in_app_iff, in_map_iff, IH. split.
    + intros [(y & E & H)|(i & g' & c' & -> & E1 & E2 & H)].
      * injection E as <- <-. exists O, g, c. repeat split; auto.
      * exists (S i), g', c'. repeat split; auto; [lia|]. cbn [Nat.eqb]. now destruct (i =? 0)%nat.
    + intros (i & g' & c' & -> & E1 & E2 & H). destruct i as [|i].
      * left. injection E1 as ->. injection E2 as ->. exists x. split; [f_equal; lia|exact H].
      * right. exists i, g', c'. repeat split; auto; [lia|]. cbn [Nat.eqb] in H. now destruct (i =? 0)%nat.
Qed.

Lemma czs_sorted v c s : StronglySorted (fun a b => cz_id a < cz_id b) (czs v c s) .
Proof.
  unfold czs. generalize (zlen (zones (fs c))) as hi. intros hi.
  assert (ID : forall z, cz_id (zinfo v c z) = z) by (intros z; unfold zinfo; now destruct (lget (zones (fs c)) z)).
  remember (Z.to_nat (hi - s)) as n eqn:En. revert s En. induction n as [|n IH]; intros s En.
  - rewrite zrange_empty by lia. constructor.
  - rewrite zrange_cons by lia. cbn [filter]. specialize (IH (s + 1) ltac:(lia)). destruct (is_closed (fs c) s); [|exact IH]. cbn [map]. constructor; [exact IH|].
    rewrite Forall_forall. intros y Hy. apply in_map_iff in Hy. destruct Hy as (z & <- & Hz). apply filter_In in Hz. destruct Hz as (Hz & _). apply in_zrange in Hz. rewrite !ID. lia.
Qed.
Lemma sorted_app {A} (R : A -> A -> Prop) a : forall b, StronglySorted R a -> StronglySorted R b -> (forall x y, In x a -> In y b -> R x y) -> StronglySorted R (a ++ b).
Proof.
  induction a as [|x a IH]; intros b Sa Sb H; [exact Sb|]. inversion Sa as [|? ? S1 F1]; subst. cbn [app]. constructor.
  - apply IH; auto. intros; apply H; auto. now right.
  - rewrite Forall_forall in *. intros y Hy. apply in_app_iff in Hy. destruct Hy as [Hy|Hy]; [now apply F1|]. apply H; auto. now left.
Qed.
Lemma expected_sorted gs : forall cs k z, StronglySorted before (expected k gs cs z).
Proof.
  induction gs as [|g gs IH]; intros [|c cs] k z; cbn [expected]; try constructor. apply sorted_app; [|apply IH|].
  - pose proof (czs_sorted (cg_v g) c z) as S. induction S as [|x l S IHS F]; cbn [map]; [constructor|]. constructor; [exact IHS|].
    rewrite Forall_forall in *. intros y Hy. apply in_map_iff in Hy. destruct Hy as (x' & <- & Hx). right. cbn [fst snd]. auto.
  - intros x (j & y) Hx Hy. apply in_map_iff in Hx. destruct Hx as (x' & <- & _). apply expected_in in Hy. destruct Hy as (i & _ & _ & -> & _). left. cbn [fst]. lia.
Qed.

Lemma perm_filter {A} (p : A -> bool) (a b : list A) : Permutation a b -> Permutation (filter p a) (filter p b).
Proof.
  induction 1 as [|x l l' H IH|x y l|l1 l2 l3 H1 IH1 H2 IH2]; cbn [filter]; [constructor| | |eapply perm_trans; eassumption].
  - destruct (p x); [now constructor|exact IH].
  - destruct (p x), (p y); try apply Permutation_refl. constructor.
Qed.
Lemma blocks_in_lsum gs w i g c live cl tr z : pgeometry gs -> In g gs -> Inv (cg_v g) c live cl tr -> 0 <= z < v_zones (cg_v g) -> Permutation live (at_cluster i (written w)) ->
  lsum (cg_v g) z live = blocks_in w i g z.
Proof.
  intros PG Hg I Rz P. pose proof (pg_v gs PG g Hg) as G.
  assert (E : lsum (cg_v g) z live = lsum (cg_v g) z (at_cluster i (written w))).
  { unfold lsum. apply sum_len_perm. now apply perm_filter. }
  rewrite E. unfold blocks_in. generalize (written w) as l. induction l as [|x l IH]; [reflexivity|].
  assert (B : inz (cg_v g) z (snd x) = (fst (v_lim (cg_v g) z) <=? fst (snd x)) && (fst (snd x) <? snd (v_lim (cg_v g) z))).
  { pose proof (inz_spec (cg_v g) G z (snd x)) as S. unfold zstart, zend in S. destruct (inz (cg_v g) z (snd x)).
    - symmetry. apply andb_true_iff. rewrite Z.leb_le, Z.ltb_lt. apply S. reflexivity.
    - symmetry. apply not_true_is_false. intros H. apply andb_true_iff in H. rewrite Z.leb_le, Z.ltb_lt in H. assert (false = true) by (apply S; auto). discriminate. }
  unfold at_cluster in *. unfold extent in *. cbn [filter]. rewrite <- andb_assoc, <- B. destruct (fst x =? i)%nat eqn:E0; cbn [map andb]; [|exact IH].
  rewrite lsum_cons. destruct (inz (cg_v g) z (snd x)); [|rewrite IH; lia]. rewrite IH. reflexivity.
Qed.

Lemma closed_stays gs w i g c z : pgeometry gs -> PInv gs w -> nth_error gs i = Some g -> nth_error (p_cl (w_p w)) i = Some c -> 0 <= z < v_zones (cg_v g) ->
  (is_closed (fs c) z = true <-> stays_full gs w i z).
Proof.
  intros PG I E1 E2 Rz. destruct (pi_cl gs w I i g c E1 E2) as (live & cl & Rc & _). pose proof (pg_v gs PG g (nth_in_gs gs i g E1)) as G.
  pose proof (reach_inv _ G _ _ _ _ Rc) as Ic. rewrite (is_closed_view (fs c) z (i_rep _ _ _ _ _ Ic)) by lia.
  destruct (i_dev _ _ _ _ _ Ic) as (d & Dv & Hd).
  destruct (pstep_inv gs PG w PAdvance I Logic.I) as (w1 & r1 & S1 & I1).
  assert (r1 = None /\ exists cs1 o1, each 0 (fun _ c => Some (advance c)) gs (p_cl (w_p w)) = Some (cs1, o1) /\ p_cl (w_p w1) = cs1 /\ w_tr w1 = w_tr w ++ o1) as (-> & cs1 & o1 & Ee & Ecs & Etr).
  { destruct w as [p fly held lost lost0 reads clean tr]. cbn [pstep w_p] in *. unfold pool_advance in S1.
    destruct (each 0 (fun _ c => Some (advance c)) gs (p_cl p)) as [(cs1 & o1)|] eqn:Ee; [|discriminate S1]. cbn [obind] in S1. injection S1 as <- <-. split; [reflexivity|]. exists cs1, o1. auto. }
  destruct (each_spec (fun _ c => Some (advance c)) gs (p_cl (w_p w)) 0 (pi_len gs _ I)) as (cs2 & o2 & Ee2 & _ & H1 & _); [intros; discriminate|].
  rewrite Ee in Ee2. injection Ee2 as <- <-. destruct (H1 i g c E1 E2) as (c1 & o & Ea & En & Eo). injection Ea as Ea. cbn [Nat.add] in Eo.
  pose proof (advance_inv (cg_v g) c live cl _ Ic) as AI. cbv zeta in AI. rewrite Ea in AI. cbn [fst snd] in AI. destruct AI as (Ic1 & _ & Vw).
  destruct (i_dev _ _ _ _ _ Ic1) as (d1 & Dv1 & Hd1).
  assert (T1 : at_cluster i (w_tr w1) = at_cluster i (w_tr w) ++ o) by (rewrite Etr, at_app, Eo; reflexivity).
  split.
  - intros V. exists w1, d, d1. split; [exact S1|]. split; [exists g; auto|]. split; [exists g; rewrite T1; auto|]. rewrite Hd, Hd1, Vw.
    destruct (view (fs c) z); try discriminate V. auto.
  - intros (w1' & d' & d1' & S1' & (g' & Eg' & Dv') & (g'' & Eg'' & Dv'') & F & F1). rewrite S1 in S1'. injection S1' as <-. rewrite E1 in Eg', Eg''. injection Eg' as <-. injection Eg'' as <-.
    rewrite Dv in Dv'. injection Dv' as <-. rewrite T1, Dv1 in Dv''. injection Dv'' as <-. rewrite Hd in F. rewrite Hd1, Vw in F1.
    destruct (view (fs c) z); cbn [dz_v] in *; try discriminate; reflexivity.
Qed.

(** Listing the closed zones of a pool ends, and yields each zone that is full and stays so exactly once, in the order of the clusters and zones, with its
    first block, its size, and the number of its blocks that are no longer used. *)
Theorem C81_closed_zones gs w : pgeometry gs -> preach gs w ->
  exists n l, (forall fuel, (n <= fuel)%nat -> list_closed_zones gs fuel (w_p w) = Some l) /\
    StronglySorted before l /\
    (forall i x, In (i, x) l -> exists g, nth_error gs i = Some g /\ 0 <= cz_id x < v_zones (cg_v g) /\
       cz_start x = fst (v_lim (cg_v g) (cz_id x)) /\ cz_total x = snd (v_lim (cg_v g) (cz_id x)) - fst (v_lim (cg_v g) (cz_id x)) /\
       0 <= cz_freed x /\ cz_total x - cz_freed x = blocks_in w i g (cz_id x)) /\
    (forall i g z, nth_error gs i = Some g -> 0 <= z < v_zones (cg_v g) -> (stays_full gs w i z <-> exists x, In (i, x) l /\ cz_id x = z)).
Proof.
  intros PG R. apply (preach_inv gs PG) in R. rename R into I. set (l := expected 0 gs (p_cl (w_p w)) 0).
  exists (length gs + length l)%nat, l.
  assert (ID : forall v c z, cz_id (zinfo v c z) = z) by (intros v c z; unfold zinfo; now destruct (lget (zones (fs c)) z)).
  split; [|split; [apply expected_sorted|split]].
  - intros fuel Hf. apply (all_spec gs (w_p w) (pi_len gs w I) fuel O 0); [pose proof (pg_some gs PG); destruct gs; [contradiction|cbn; lia]|exact Hf|lia].
  - intros j x H. apply expected_in in H. destruct H as (i & g & c & -> & E1 & E2 & H). cbn [Nat.add]. exists g. split; [exact E1|].
    destruct (pi_cl gs w I i g c E1 E2) as (live & cl & Rc & P & _). pose proof (pg_v gs PG g (nth_in_gs gs i g E1)) as G.
    pose proof (reach_inv _ G _ _ _ _ Rc) as Ic. apply in_map_iff in H. destruct H as (z & <- & H). apply filter_In in H. destruct H as (Rz & Cz). apply in_zrange in Rz.
    assert (Rz0 : 0 <= z < v_zones (cg_v g)).
    { rewrite <- (i_tot _ _ _ _ _ Ic). pose proof (r_len _ (i_rep _ _ _ _ _ Ic)). destruct (i =? 0)%nat; lia. }
    rewrite ID. split; [exact Rz0|]. rewrite (is_closed_view (fs c) z (i_rep _ _ _ _ _ Ic)) in Cz by lia.
    pose proof (i_zone _ _ _ _ _ Ic z Rz0) as ZI. unfold zinfo. destruct (lget (zones (fs c)) z) as [y|] eqn:Lg.
    + assert (V : view (fs c) z = ZClosed y).
      { unfold view in *. rewrite Lg in *. destruct (zm_mem z (empties (fs c))); [destruct (te y =? 0); discriminate|]. destruct (zm_get z (opens (fs c))); [discriminate|reflexivity]. }
      rewrite V in ZI. cbn [zone_inv] in ZI. unfold zstart, zend in ZI. cbn [cz_start cz_total cz_freed].
      rewrite <- (blocks_in_lsum gs w i g c live cl _ z PG (nth_in_gs gs i g E1) Ic Rz0 P). repeat split; try tauto; lia.
    + exfalso. unfold view in Cz. rewrite Lg in Cz. discriminate.
  - intros i g z E1 Rz. destruct (cluster_at gs w i I) as (g' & c & E1' & E2); [apply nth_lt; eauto|]. rewrite E1 in E1'. injection E1' as <-.
    destruct (pi_cl gs w I i g c E1 E2) as (live & cl & Rc & P & _). pose proof (pg_v gs PG g (nth_in_gs gs i g E1)) as G.
    pose proof (reach_inv _ G _ _ _ _ Rc) as Ic.
    rewrite <- (closed_stays gs w i g c z PG I E1 E2 Rz). split.
    + intros Cz. exists (zinfo (cg_v g) c z). split; [|apply ID]. apply expected_in. exists i, g, c. split; [reflexivity|]. split; [exact E1|]. split; [exact E2|].
      unfold czs. apply in_map. apply filter_In. split; [|exact Cz]. apply in_zrange.
      unfold is_closed in Cz. apply andb_prop in Cz. destruct Cz as (Cz & _). apply andb_prop in Cz. destruct Cz as (Cz & _). apply Z.ltb_lt in Cz.
      destruct (i =? 0)%nat; lia.
    + intros (x & H & <-). apply expected_in in H. destruct H as (i' & g' & c' & -> & E1' & E2' & H). cbn [Nat.add] in *. rewrite E2 in E2'. injection E2' as <-.
      apply in_map_iff in H. destruct H as (z & <- & H). apply filter_In in H. rewrite ID. apply H.
Qed.

(** * C82: the choice of zones to clean *)

Lemma half_real : B2R DEFAULT_THRESHOLD = (IZR 1 / IZR 2)%R.
Proof.
  cbn [DEFAULT_THRESHOLD B2R]. unfold F2R. cbn [Fnum Fexp cond_Zopp]. change (bpow radix2 (-24)) with (/ IZR (2 ^ 24))%R. change (2 ^ 24) with 16777216. lra.
Qed.

Definition sane (x : nat * cz) : Prop := 0 <= cz_freed (snd x) <= cz_total (snd x) /\ 0 < cz_total (snd x) < 2 ^ 23.

Lemma dirtiness_real x : sane x ->
  is_finite (dirtiness x) = true /\ B2R (dirtiness x) = rnd32 (IZR (cz_freed (snd x)) / IZR (cz_total (snd x))).
Proof.
  intros (Hf & Ht). destruct (to_f32_exact (cz_freed (snd x))) as (Ef & Ff); [lia|]. destruct (to_f32_exact (cz_total (snd x))) as (Et & Ft); [lia|].
  unfold dirtiness, div32. pose proof (ratio_range (cz_freed (snd x)) (cz_total (snd x)) Hf (proj1 Ht)) as RR.
  pose proof (div_correct 24 128 eq_refl (to_f32 (cz_freed (snd x))) (to_f32 (cz_total (snd x))) 0 Ff Ft) as D. rewrite Ef, Et in D.
  destruct D as (D1 & D2); try lia.
  - apply IZR_lt. lia.
  - apply IZR_le. lia.
  - cbn [bpow]. lra.
  - split; [exact D2|exact D1].
Qed.

Lemma apart32 fa ta fb tb : 0 <= fa -> 0 < ta -> 0 <= fb <= tb -> 0 < tb -> ta * tb < 2 ^ 24 * (fb * ta - fa * tb) ->
  (rnd32 (IZR fa / IZR ta) < rnd32 (IZR fb / IZR tb))%R.
Proof.
  intros Fa Ta Fb Tb H. assert (Pa : (0 < IZR ta)%R) by (apply IZR_lt; lia). assert (Pb : (0 < IZR tb)%R) by (apply IZR_lt; lia).
  apply (rnd_distinct 24 128 eq_refl).
  - apply Rmult_le_pos; [apply IZR_le; lia|]. left. now apply Rinv_0_lt_compat.
  - change (bpow radix2 (- (24))) with (/ IZR (2 ^ 24))%R. assert (P24 : (0 < IZR (2 ^ 24))%R) by (apply IZR_lt; reflexivity).
    apply Rmult_lt_reg_r with (IZR (2 ^ 24) * IZR ta * IZR tb)%R; [apply Rmult_lt_0_compat; [apply Rmult_lt_0_compat; assumption|assumption]|].
    replace ((IZR fa / IZR ta + / IZR (2 ^ 24)) * (IZR (2 ^ 24) * IZR ta * IZR tb))%R with (IZR (2 ^ 24 * (fa * tb) + ta * tb))%R.
    2: { rewrite plus_IZR, !mult_IZR. field. split; apply Rgt_not_eq; assumption. }
    replace (IZR fb / IZR tb * (IZR (2 ^ 24) * IZR ta * IZR tb))%R with (IZR (2 ^ 24 * (fb * ta)))%R.
    2: { rewrite !mult_IZR. field. apply Rgt_not_eq; assumption. }
    apply IZR_lt. lia.
  - apply (ratio_range fb tb); lia.
Qed.
Lemma ratio_le fa ta fb tb : 0 < ta -> 0 < tb -> fa * tb <= fb * ta -> (IZR fa / IZR ta <= IZR fb / IZR tb)%R.
Proof.
  intros Ta Tb H. assert (Pa : (0 < IZR ta)%R) by (apply IZR_lt; lia). assert (Pb : (0 < IZR tb)%R) by (apply IZR_lt; lia).
  apply Rmult_le_reg_r with (IZR ta * IZR tb)%R; [now apply Rmult_lt_0_compat|].
  replace (IZR fa / IZR ta * (IZR ta * IZR tb))%R with (IZR (fa * tb)) by (rewrite mult_IZR; field; apply Rgt_not_eq; assumption).
  replace (IZR fb / IZR tb * (IZR ta * IZR tb))%R with (IZR (fb * ta)) by (rewrite mult_IZR; field; apply Rgt_not_eq; assumption).
  now apply IZR_le.
Qed.

(** A zone is dirty enough if at least half of it is unused. *)
Lemma dirty_half x : sane x -> dirty_enough DEFAULT_THRESHOLD x = true <-> cz_total (snd x) <= 2 * cz_freed (snd x).
Proof.
  intros S. destruct (dirtiness_real x S) as (F & E). destruct S as (Hf & Ht). unfold dirty_enough. rewrite (Bcompare_correct 24 128 _ DEFAULT_THRESHOLD F eq_refl), E, <- (rnd_B2R 24 128 DEFAULT_THRESHOLD), half_real.
  destruct (Z_le_gt_dec (cz_total (snd x)) (2 * cz_freed (snd x))) as [L|L].
  - assert (R : (rnd32 (IZR 1 / IZR 2) <= rnd32 (IZR (cz_freed (snd x)) / IZR (cz_total (snd x))))%R) by (apply (rnd_le 24 128); apply ratio_le; lia).
    split; [intros _; exact L|intros _]. destruct (Rcompare_spec (rnd32 (IZR (cz_freed (snd x)) / IZR (cz_total (snd x)))) (rnd32 (IZR 1 / IZR 2))); [lra|reflexivity|reflexivity].
  - assert (R : (rnd32 (IZR (cz_freed (snd x)) / IZR (cz_total (snd x))) < rnd32 (IZR 1 / IZR 2))%R) by (apply apart32; lia).
    rewrite Rcompare_Lt by exact R. split; [discriminate|lia].
Qed.

(** Comparing two zones *)
Lemma cmp_real a b : sane a -> sane b -> zone_cmp a b = Some (Rcompare (B2R (dirtiness b)) (B2R (dirtiness a))).
Proof.
  intros Sa Sb. destruct (dirtiness_real a Sa) as (Fa & _). destruct (dirtiness_real b Sb) as (Fb & _).
  unfold zone_cmp. rewrite Bcompare_correct by (rewrite is_finite_Bopp; assumption). rewrite !B2R_Bopp. f_equal.
  destruct (Rcompare_spec (B2R (dirtiness b)) (B2R (dirtiness a))); [apply Rcompare_Lt|apply Rcompare_Eq|apply Rcompare_Gt]; lra.
Qed.
Lemma cmp_order a b : sane a -> sane b -> (cz_total (snd a) = cz_total (snd b) \/ cz_total (snd a) * cz_total (snd b) < 2 ^ 24) -> zone_cmp a b <> Some Gt ->
  cz_freed (snd b) * cz_total (snd a) <= cz_freed (snd a) * cz_total (snd b).
Proof.
  intros Sa Sb T H. rewrite (cmp_real a b Sa Sb) in H. destruct (dirtiness_real a Sa) as (_ & Ea). destruct (dirtiness_real b Sb) as (_ & Eb).
  destruct (Z_le_gt_dec (cz_freed (snd b) * cz_total (snd a)) (cz_freed (snd a) * cz_total (snd b))) as [?|G]; [assumption|exfalso].
  destruct Sa as (Fa & Ta). destruct Sb as (Fb & Tb). apply H. f_equal. apply Rcompare_Gt. rewrite Ea, Eb. clear H Ea Eb. apply apart32; try lia. destruct T as [T|T]; [|lia]. rewrite T in *. assert (cz_freed (snd a) + 1 <= cz_freed (snd b)) by nia. nia.
Qed.

(** The sort always succeeds. *)
Lemma sort_exists : forall l : list (nat * cz), Forall sane l ->
  exists l', Permutation l l' /\ StronglySorted (fun a b => zone_cmp a b <> Some Gt /\ zone_cmp a b <> None) l'.
Proof.
  set (R := fun a b => zone_cmp a b <> Some Gt /\ zone_cmp a b <> None).
  assert (RR : forall a b, sane a -> sane b -> R a b <-> (B2R (dirtiness b) <= B2R (dirtiness a))%R).
  { intros a b Sa Sb. unfold R. rewrite (cmp_real a b Sa Sb). destruct (Rcompare_spec (B2R (dirtiness b)) (B2R (dirtiness a))) as [H|H|H].
    - split; [lra|]. intros _. split; discriminate.
    - split; [lra|]. intros _. split; discriminate.
    - split; [intros (X & _); now destruct X|lra]. }
  assert (INS : forall l x, Forall sane l -> sane x -> StronglySorted R l -> exists l', Permutation (x :: l) l' /\ StronglySorted R l').
  { induction l as [|y l IH]; intros x Fl Sx Sl; [exists [x]; split; [apply Permutation_refl|repeat constructor]|].
    inversion Fl as [|? ? Sy Fl']; subst. inversion Sl as [|? ? Sl' Fy]; subst.
    destruct (Rle_lt_dec (B2R (dirtiness y)) (B2R (dirtiness x))) as [H|H].
    - exists (x :: y :: l). split; [apply Permutation_refl|]. constructor; [exact Sl|]. constructor; [now apply RR|].
      rewrite Forall_forall in *. intros z Hz. apply RR; auto. pose proof (proj1 (RR y z Sy (Fl' z Hz)) (Fy z Hz)). lra.
    - destruct (IH x Fl' Sx Sl') as (l' & P & S). exists (y :: l'). split; [eapply perm_trans; [apply perm_swap|]; now constructor|].
      constructor; [exact S|]. rewrite Forall_forall in *. intros z Hz. apply (Permutation_in _ (Permutation_sym P)) in Hz. destruct Hz as [<-|Hz]; [|now apply Fy].
      apply RR; auto. lra. }
  induction l as [|x l IH]; intros F; [exists []; split; [constructor|constructor]|]. inversion F as [|? ? Sx Fl]; subst.
  destruct (IH Fl) as (l' & P & S). destruct (INS l' x) as (l'' & P' & S'); [rewrite Forall_forall in *; intros z Hz; apply Fl; eapply Permutation_in; [symmetry; exact P|exact Hz]|exact Sx|exact S|].
  exists l''. split; [|exact S']. eapply perm_trans; [|exact P']. now constructor.
Qed.

(** Proved part of the claim, for pools whose zones have less than 2^23 blocks (32 GB): the choice never fails, whatever the order of equally dirty zones it
    takes exactly the full zones at least half of which is unused, each once, and a zone goes before another one of the same size only if not less of it is
    unused; for zones of different sizes the proportions are compared exactly if the product of the sizes is less than 2^24. *)
Theorem C82_zones_to_clean_partial gs w : pgeometry gs -> preach gs w ->
  (forall g z, In g gs -> 0 <= z < v_zones (cg_v g) -> snd (v_lim (cg_v g) z) - fst (v_lim (cg_v g) z) < 2 ^ 23) ->
  exists n l, (forall fuel, (n <= fuel)%nat -> list_closed_zones gs fuel (w_p w) = Some l) /\
    (exists l', selects DEFAULT_THRESHOLD l l') /\
    forall l', selects DEFAULT_THRESHOLD l l' ->
      NoDup (map (fun x => (fst x, cz_id (snd x))) l') /\
      (forall i g z, nth_error gs i = Some g -> 0 <= z < v_zones (cg_v g) ->
         (exists x, In (i, x) l' /\ cz_id x = z) <->
         stays_full gs w i z /\ 2 * blocks_in w i g z <= snd (v_lim (cg_v g) z) - fst (v_lim (cg_v g) z)) /\
      StronglySorted (fun a b => forall g h, nth_error gs (fst a) = Some g -> nth_error gs (fst b) = Some h ->
          let size_a := snd (v_lim (cg_v g) (cz_id (snd a))) - fst (v_lim (cg_v g) (cz_id (snd a))) in
          let size_b := snd (v_lim (cg_v h) (cz_id (snd b))) - fst (v_lim (cg_v h) (cz_id (snd b))) in
          (size_a = size_b \/ size_a * size_b < 2 ^ 24) ->
          blocks_in w (fst a) g (cz_id (snd a)) * size_b <= blocks_in w (fst b) h (cz_id (snd b)) * size_a) l'.
Proof.
  intros PG R HZ. destruct (C81_closed_zones gs w PG R) as (n & l & Hl & So & Hin & Hfull). exists n, l. split; [exact Hl|].
  assert (POS : forall i g z, nth_error gs i = Some g -> 0 <= blocks_in w i g z).
  { intros i g z _. apply (blocks_nonneg w gs PG (preach_inv gs PG w R)). intros x Hx. apply filter_In in Hx. apply Hx. }
  assert (SA : Forall sane l).
  { rewrite Forall_forall. intros (i & x) Hx. destruct (Hin i x Hx) as (g & Eg & Rz & _ & Ht & Hf & Hb). pose proof (POS i g (cz_id x) Eg).
    pose proof (HZ g _ (nth_in_gs gs i g Eg) Rz). pose proof (g_size _ (pg_v gs PG g (nth_in_gs gs i g Eg)) _ Rz). unfold sane. cbn [snd]. lia. }
  assert (SF : Forall sane (filter (dirty_enough DEFAULT_THRESHOLD) l)).
  { rewrite Forall_forall in *. intros x Hx. apply filter_In in Hx. apply SA. tauto. }
  split; [destruct (sort_exists _ SF) as (l' & P & S); exists l'; split; assumption|].
  intros l' (P & S).
  assert (IN : forall x, In x l' <-> In x l /\ dirty_enough DEFAULT_THRESHOLD x = true).
  { intros x. rewrite <- filter_In. split; intros H; eapply Permutation_in; try exact H; [symmetry|]; exact P. }
  split; [|split].
  - eapply Permutation_NoDup; [apply Permutation_map; exact P|]. clear -So.
    induction So as [|x l So IH F]; cbn [filter map]; [constructor|]. destruct (dirty_enough DEFAULT_THRESHOLD x); [|exact IH]. cbn [map]. constructor; [|exact IH].
    intros H. apply in_map_iff in H. destruct H as (y & E & Hy). apply filter_In in Hy. rewrite Forall_forall in F. destruct (F y (proj1 Hy)) as [L|(_ & L)]; injection E as E1 E2; lia.
  - intros i g z Eg Rz. rewrite (Hfull i g z Eg Rz). split.
    + intros (x & Hx & <-). apply IN in Hx. destruct Hx as (Hx & D). split; [eauto|]. rewrite Forall_forall in SA. apply (dirty_half _ (SA _ Hx)) in D. cbn [snd] in D.
      destruct (Hin i x Hx) as (g' & Eg' & _ & _ & Ht & Hf & Hb). rewrite Eg in Eg'. injection Eg' as <-. lia.
    + intros ((x & Hx & <-) & D). exists x. split; [|reflexivity]. apply IN. split; [exact Hx|]. rewrite Forall_forall in SA. apply (dirty_half _ (SA _ Hx)). cbn [snd].
      destruct (Hin i x Hx) as (g' & Eg' & _ & _ & Ht & Hf & Hb). rewrite Eg in Eg'. injection Eg' as <-. lia.
  - assert (SL : forall x, In x l' -> sane x /\ In x l) by (intros x Hx; apply IN in Hx; rewrite Forall_forall in SA; split; [apply SA|]; tauto).
    clear P IN. induction S as [|a l' S IH F]; [constructor|]. constructor; [apply IH; intros x Hx; apply SL; now right|].
    rewrite Forall_forall in *. intros b Hb g h Eg Eh size_a size_b T. destruct (F b Hb) as (C & _).
    destruct (SL a (or_introl eq_refl)) as (Sa & La). destruct (SL b (or_intror Hb)) as (Sb & Lb).
    destruct a as (i & a). destruct b as (j & b). cbn [fst snd] in *. destruct (Hin i a La) as (g' & Eg' & _ & _ & Ta & Fa & Ba). destruct (Hin j b Lb) as (h' & Eh' & _ & _ & Tb & Fb & Bb).
    rewrite Eg in Eg'. injection Eg' as <-. rewrite Eh in Eh'. injection Eh' as <-. fold size_a in Ta. fold size_b in Tb.
    pose proof (cmp_order (i, a) (j, b) Sa Sb) as O1. cbn [snd] in O1. rewrite Ta, Tb in O1. specialize (O1 T C). rewrite <- Ba, <- Bb, Ta, Tb. clear -O1. clearbody size_a size_b. lia.
Qed.

(** ** Concrete pools *)

(** The full claim is false for huge zones: one with less than half unused is chosen, because its size is rounded. *)

(** Two zones of 2^25 + 2 blocks *)
Definition vbig : vdev :=
  mkvdev 2 (fun z => (33554434 * z, 33554434 * z + 33554434)) (fun l => if (0 <=? l) && (l <? 67108868) then Some (l / 33554434) else None) 2.
Lemma vbig_geometry : geometry vbig.
Proof.
  split; cbn [vbig v_zones v_lim v_zone_of v_stripe fst snd]; try lia.
  - intros z Hz. unfold U32MAX. lia.
  - intros lba z. destruct ((0 <=? lba) && (lba <? 67108868)) eqn:B.
    + split.
      * intros [= H]. pose proof (Z.div_mod lba 33554434 ltac:(lia)). pose proof (Z.mod_pos_bound lba 33554434 ltac:(lia)). lia.
      * intros [H1 H2]. f_equal. symmetry. apply Z.div_unique_pos with (r := lba - 33554434 * z); lia.
    + split; [discriminate|]. intros [H1 H2]. lia.
Qed.
Definition big : list cgeo := [CGeo vbig 67108868 10].
Lemma big_geometry : pgeometry big.
Proof.
  split; [discriminate| | |]; intros g [<-|[]]; cbn [cg_v cg_size cg_opt]; [exact vbig_geometry| |lia]. split; [lia|]. apply Z.leb_le. reflexivity.
Qed.
Definition big_history : list pev := put 16777216 1 ++ put 16777218 1 ++ put 10 1 ++ [PFree (O, (0, 16777216))].

Theorem C82_huge_zones_refuted : exists gs w n l i x g, pgeometry gs /\ preach gs w /\ list_closed_zones gs n (w_p w) = Some l /\
  (forall l', selects DEFAULT_THRESHOLD l l' -> In (i, x) l') /\ nth_error gs i = Some g /\
  snd (v_lim (cg_v g) (cz_id x)) - fst (v_lim (cg_v g) (cz_id x)) < 2 * blocks_in w i g (cz_id x).
Proof.
  set (x := CZ 0 0 16777216 33554434 1 2). set (g := CGeo vbig 67108868 10).
  destruct (prun big big_history (start big)) as [w|] eqn:E; [|vm_compute in E; discriminate].
  assert (Y : option_map (fun w => (list_closed_zones big 5 (w_p w), blocks_in w 0 g 0)) (prun big big_history (start big)) = Some (Some [(O, x)], 16777218)) by (vm_compute; reflexivity).
  rewrite E in Y. injection Y as Y1 Y2. exists big, w, 5%nat, [(O, x)], O, x, g. split; [exact big_geometry|]. split; [eapply prun_reach; [|exact E]; apply preach_init|].
  split; [exact Y1|]. split.
  - intros l' (P & _). eapply Permutation_in; [exact P|]. assert (D : dirty_enough DEFAULT_THRESHOLD (O, x) = true) by (vm_compute; reflexivity).
    cbn [filter]. rewrite D. now left.
  - split; [reflexivity|]. cbn [cz_id x]. rewrite Y2. cbn [g cg_v vbig v_lim fst snd]. lia.
Qed.

(** A pool with three closed zones in two clusters, two of which are chosen; it meets the hypotheses of C81 and C82. *)
Definition clean_history : list pev :=
  put 5 12 ++ [PFree (0%nat, (0, 5)); PFree (1%nat, (0, 5)); PFree (1%nat, (5, 5)); PFree (1%nat, (10, 5))].
Example C82_example : exists w l, pgeometry twins /\ preach twins w /\
  (forall g z, In g twins -> 0 <= z < v_zones (cg_v g) -> snd (v_lim (cg_v g) z) - fst (v_lim (cg_v g) z) < 2 ^ 23) /\
  list_closed_zones twins 9 (w_p w) = Some l /\ map (fun x => (fst x, cz_id (snd x), cz_freed (snd x))) l = [(O, 0, 5); (O, 1, 0); (1%nat, 1, 5)] /\
  map (dirty_enough DEFAULT_THRESHOLD) l = [true; false; true].
Proof.
  destruct (prun twins clean_history (start twins)) as [w|] eqn:E; [|vm_compute in E; discriminate].
  assert (Y : option_map (fun w => option_map (fun l => (map (fun x => (fst x, cz_id (snd x), cz_freed (snd x))) l, map (dirty_enough DEFAULT_THRESHOLD) l)) (list_closed_zones twins 9 (w_p w)))
    (prun twins clean_history (start twins)) = Some (Some ([(O, 0, 5); (O, 1, 0); (1%nat, 1, 5)], [true; false; true]))) by (vm_compute; reflexivity).
  rewrite E in Y. cbn [option_map] in Y. destruct (list_closed_zones twins 9 (w_p w)) as [l|] eqn:L; cbn [option_map] in Y; [|discriminate Y]. injection Y as Y1 Y2. exists w, l.
  split; [exact twins_geometry|]. split; [eapply prun_reach; [|exact E]; apply preach_init|]. split; [|auto].
  intros g z [<-|[<-|[]]] _; cbn [cg_v vk v_lim fst snd]; lia.
Qed.

Print Assumptions C81_closed_zones.
Print Assumptions C82_zones_to_clean_partial.
Print Assumptions C82_huge_zones_refuted.
