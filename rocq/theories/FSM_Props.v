(** C13-C16 and C56: the space allocator of a cluster. *)
From Verif Require Import Common ZMap FSM_Model FSM_Spec FSM_Proofs FSM_Inv.

(** * C13: no double allocation *)

(** No legal history makes the cluster panic. *)
Theorem C13_never_panics v c live cl tr op :
  geometry v -> reach v c live cl tr -> legal live cl op -> step v c op <> None.
Proof.
  intros G R L. apply reach_inv in R; [|exact G].
  destruct (step_inv v G c live cl tr op R L) as (c' & r & o & E & _). congruence.
Qed.

(** The extents a client holds never overlap, and each lies in one zone. *)
Theorem C13_live_extents_disjoint v c live cl tr :
  geometry v -> reach v c live cl tr ->
  ForallOrdPairs disjoint live /\
  forall e, In e live -> exists z, 0 <= z < v_zones v /\
    fst (v_lim v z) <= fst e /\ fst e + snd e <= snd (v_lim v z).
Proof.
  intros G R. apply reach_inv in R; [|exact G]. pose proof (i_live _ _ _ _ _ R) as L. split; [apply L|].
  intros e He. destruct (l_in v live L e He) as (_ & z & Hz & _ & H1 & H2). exists z. auto.
Qed.

(** Erasing a zone never destroys an extent the client holds. *)
Theorem C13_erase_only_free v c live cl tr c' r o z e :
  geometry v -> reach v c live cl tr -> step v c CAdvance = Some (c', r, o) ->
  In (VErase z) o -> In e live -> disjoint e (fst (v_lim v z), snd (v_lim v z) - fst (v_lim v z)).
Proof.
  intros G R E Hz He. apply reach_inv in R; [|exact G].
  pose proof (advance_inv v c live cl tr R) as (_ & H & _). cbn [step] in E.
  destruct (advance c) as [c1 o1]. cbn [fst snd] in H. injection E as <- <- <-.
  apply H in Hz. destruct Hz as (s & t & V).
  pose proof (i_rep _ _ _ _ _ R) as Rp. pose proof (i_tot _ _ _ _ _ R) as T.
  pose proof (view_range (fs c) z ltac:(congruence)) as Hr. pose proof (r_len _ Rp) as Hl.
  pose proof (i_zone _ _ _ _ _ R z ltac:(lia)) as ZI. rewrite V in ZI. cbn [zone_inv] in ZI.
  pose proof (i_live _ _ _ _ _ R) as L.
  pose proof (lsum_zero_none v live z L (proj1 ZI) e He) as N.
  destruct (l_in v live L e He) as (_ & z' & Hz' & I' & S1 & S2).
  intros l [[H1 H2] [H3 H4]]. cbn [fst snd] in *. unfold zstart, zend in *.
  assert (X1 : inz v z (l, 1) = true) by (apply inz_spec; auto; unfold zstart, zend; cbn [fst]; lia).
  assert (X2 : inz v z' (l, 1) = true) by (apply inz_spec; auto; unfold zstart, zend; cbn [fst]; lia).
  assert (z = z') by (eapply inz_unique; eauto). subst. congruence.
Qed.

(** * C56: the zone protocol *)

Theorem C56_zone_protocol v c live cl tr :
  geometry v -> reach v c live cl tr -> exists d, dev_run v (fun _ => DEmpty) tr = Some d.
Proof.
  intros G R. apply reach_inv in R; [|exact G]. destruct (i_dev _ _ _ _ _ R) as (d & E & _). eauto.
Qed.

(** A device following the protocol never sees two overlapping writes without
    an erase of the zone in between. *)
Definition dinv (v : vdev) (d : Z -> dz) : Prop :=
  forall z wp, d z = DOpen wp -> 0 <= z < v_zones v /\ fst (v_lim v z) <= wp <= snd (v_lim v z).

Lemma dev_step_dinv v d o d' : geometry v -> dinv v d -> dev_step v d o = Some d' -> dinv v d'.
Proof.
  intros G H E z wp. destruct o as [y|y lba len|y gap|y|y|y al]; cbn [dev_step] in E;
    pose proof (H y) as Hy; destruct (d y) as [|w|] eqn:Dy; try discriminate.
  - destruct ((0 <=? y) && (y <? v_zones v)) eqn:B; [|discriminate]. injection E as <-. unfold dset.
    destruct (Z.eqb_spec z y); [|apply H]. intros [= <-]. subst. pose proof (g_size v G y ltac:(lia)). lia.
  - destruct ((0 <? len) && (w =? lba) && (lba + len <=? snd (v_lim v y))) eqn:B; [|discriminate]. injection E as <-. unfold dset.
    destruct (Z.eqb_spec z y); [|apply H]. intros [= <-]. subst. specialize (Hy w eq_refl). lia.
  - destruct ((0 <=? gap) && (w + gap <=? snd (v_lim v y)) && ((w + gap - fst (v_lim v y)) mod v_stripe v =? 0)) eqn:B; [|discriminate].
    apply andb_prop in B. destruct B as [B _]. injection E as <-. unfold dset.
    destruct (Z.eqb_spec z y); [|apply H]. intros [= <-]. subst. specialize (Hy w eq_refl). lia.
  - injection E as <-. unfold dset. destruct (Z.eqb_spec z y); [easy|apply H].
  - injection E as <-. unfold dset. destruct (Z.eqb_spec z y); [easy|apply H].
  - destruct (w =? fst (v_lim v y) + al); [|discriminate]. injection E as <-. apply H.
Qed.

(** Without an erase, a zone that has been written up to [wp] can only be
    written beyond [wp]. *)
Lemma dev_no_erase v z wp : geometry v -> forall l d d' , dinv v d ->
  (d z = DFull \/ exists w, d z = DOpen w /\ wp <= w) -> ~ In (VErase z) l ->
  dev_run v d l = Some d' -> dinv v d' /\ (d' z = DFull \/ exists w, d' z = DOpen w /\ wp <= w).
Proof.
  intros G. induction l as [|o l IH]; intros d d' I H N E.
  - injection E as <-. auto.
  - cbn [dev_run] in E. destruct (dev_step v d o) as [d1|] eqn:E1; [|discriminate]. cbn [obind] in E.
    apply (IH d1 d'); auto.
    + eapply dev_step_dinv; eauto.
    + destruct o as [y|y lba len|y gap|y|y|y al]; cbn [dev_step] in E1;
        destruct (d y) as [|w|] eqn:Dy; try discriminate.
      * destruct ((0 <=? y) && (y <? v_zones v)); [|discriminate]. injection E1 as <-. unfold dset.
        destruct (Z.eqb_spec z y); [|exact H]. subst. destruct H as [H|(w' & H & _)]; congruence.
      * destruct ((0 <? len) && (w =? lba) && (lba + len <=? snd (v_lim v y))) eqn:B; [|discriminate]. injection E1 as <-. unfold dset.
        destruct (Z.eqb_spec z y); [|exact H]. subst. right. exists (lba + len). split; [reflexivity|].
        destruct H as [H|(w' & H & Hw)]; [congruence|]. rewrite Dy in H. injection H as ->. lia.
      * destruct ((0 <=? gap) && (w + gap <=? snd (v_lim v y)) && ((w + gap - fst (v_lim v y)) mod v_stripe v =? 0)) eqn:B; [|discriminate].
        apply andb_prop in B. destruct B as [B _]. injection E1 as <-. unfold dset.
        destruct (Z.eqb_spec z y); [|exact H]. subst. right. exists (w + gap). split; [reflexivity|].
        destruct H as [H|(w' & H & Hw)]; [congruence|]. rewrite Dy in H. injection H as ->. lia.
      * injection E1 as <-. unfold dset. destruct (Z.eqb_spec z y); [now left|exact H].
      * injection E1 as <-. unfold dset. destruct (Z.eqb_spec z y); [|exact H]. subst. exfalso. apply N. now left.
      * destruct (w =? fst (v_lim v y) + al); [|discriminate]. injection E1 as <-. exact H.
    + intros X. apply N. now right.
Qed.

Theorem C13_no_overlap_without_erase v c live cl tr a b e z l n z' l' n' :
  geometry v -> reach v c live cl tr ->
  tr = a ++ VWrite z l n :: b ++ VWrite z' l' n' :: e ->
  ~ disjoint (l, n) (l', n') -> z = z' /\ In (VErase z) b.
Proof.
  intros G R -> ND. destruct (C56_zone_protocol _ _ _ _ _ G R) as [d E].
  rewrite dev_run_app in E. destruct (dev_run v (fun _ => DEmpty) a) as [d1|] eqn:E1; [|discriminate]. cbn [obind] in E.
  change (VWrite z l n :: b ++ VWrite z' l' n' :: e) with ([VWrite z l n] ++ b ++ [VWrite z' l' n'] ++ e) in E.
  rewrite dev_run_app in E. destruct (dev_run v d1 [VWrite z l n]) as [d2|] eqn:E2; [|discriminate]. cbn [obind] in E.
  rewrite dev_run_app in E. destruct (dev_run v d2 b) as [d3|] eqn:E3; [|discriminate]. cbn [obind] in E.
  rewrite dev_run_app in E. destruct (dev_run v d3 [VWrite z' l' n']) as [d4|] eqn:E4; [|discriminate]. clear E.
  assert (Dr : forall l d d', dinv v d -> dev_run v d l = Some d' -> dinv v d').
  { intros l0; induction l0 as [|o l0 IH]; intros x x' Hx Ex; [now injection Ex as <-|].
    cbn [dev_run] in Ex. destruct (dev_step v x o) eqn:Eo; [|discriminate]. eapply IH; [|exact Ex]. eapply dev_step_dinv; eauto. }
  assert (D1 : dinv v d1). { eapply Dr; [|exact E1]. intros ? ?. discriminate. }
  pose proof (Dr _ _ _ D1 E2) as D2. pose proof (Dr _ _ _ D2 E3) as D3.
  assert (W1 : d1 z = DOpen l /\ 0 < n /\ l + n <= snd (v_lim v z) /\ d2 z = DOpen (l + n)).
  { cbn [dev_run dev_step] in E2. destruct (d1 z) as [|w|]; try discriminate.
    destruct ((0 <? n) && (w =? l) && (l + n <=? snd (v_lim v z))) eqn:B; [|discriminate]. cbn [obind] in E2. injection E2 as <-.
    unfold dset. rewrite Z.eqb_refl. repeat split; try lia. f_equal. lia. }
  assert (W2 : d3 z' = DOpen l' /\ 0 < n' /\ l' + n' <= snd (v_lim v z')).
  { cbn [dev_run dev_step] in E4. destruct (d3 z') as [|w|]; try discriminate.
    destruct ((0 <? n') && (w =? l') && (l' + n' <=? snd (v_lim v z'))) eqn:B; [|discriminate]. repeat split; try lia. f_equal. lia. }
  destruct W1 as (A1 & A2 & A3 & A4), W2 as (B1 & B2 & B3).
  destruct (D1 z l A1) as [Z1 Z2]. destruct (D3 z' l' B1) as [Z3 Z4].
  destruct (Z.eq_dec z z') as [->|Nz].
  - split; [reflexivity|]. destruct (in_dec (ltac:(decide equality; apply Z.eq_dec) : forall x y : vop, {x = y} + {x <> y}) (VErase z') b) as [Hi|Hi]; [exact Hi|exfalso].
    destruct (dev_no_erase v z' (l + n) G b d2 d3 D2) as [_ X]; auto.
    { right. exists (l + n). split; [exact A4|lia]. }
    apply ND. intros p [P1 P2]. cbn [fst snd] in *.
    destruct X as [X|(w & X & Xw)]; [congruence|]. rewrite B1 in X. injection X as <-. lia.
  - exfalso. apply ND. intros p [P1 P2]. cbn [fst snd] in *.
    assert (Q1 : v_zone_of v p = Some z) by (apply (g_zone_of v G); lia).
    assert (Q2 : v_zone_of v p = Some z') by (apply (g_zone_of v G); lia). congruence.
Qed.

(** * C14: space accounting *)

(** The reported used space is exactly the space the client holds. *)
Theorem C14_used_is_exact v c live cl tr :
  geometry v -> reach v c live cl tr -> used c = Some (sum_len live).
Proof.
  intros G R. apply reach_inv in R; [|exact G]. pose proof (i_live _ _ _ _ _ R) as L.
  pose proof (i_tot _ _ _ _ _ R) as T. unfold used.
  assert (U : forall z, 0 <= z < v_zones v -> use_v (view (fs c) z) = lsum v z live).
  { intros z Hz. eapply zone_inv_use; [apply (live_pos v live L)|]. now apply (i_zone _ _ _ _ _ R). }
  rewrite in_use_total_view; [|apply R|].
  - rewrite T. f_equal. rewrite (zsum_ext _ _ _ (fun z => lsum v z live)) by exact U.
    apply lsum_total. intros e He. destruct (l_in v live L e He) as (_ & z & Hz & Hi & _). eauto.
  - rewrite T. intros z Hz. rewrite U by auto. apply lsum_nonneg. apply (live_pos v live L).
Qed.

(** The reported allocated space is exactly the space consumed in the zones
    that are not about to be erased: written or padded in open zones, all of it
    in full ones. *)
Definition consumed (v : vdev) (d : Z -> dz) (o : list vop) (z : Z) : Z :=
  match d z with
  | DEmpty => 0
  | DOpen wp => wp - fst (v_lim v z)
  | DFull => if existsb (fun p => match p with VErase y => y =? z | _ => false end) o then 0
             else snd (v_lim v z) - fst (v_lim v z)
  end.

Theorem C14_allocated_is_exact v c live cl tr :
  geometry v -> reach v c live cl tr ->
  exists d c' o, dev_run v (fun _ => DEmpty) tr = Some d /\ step v c CAdvance = Some (c', RUnit, o) /\
    alloc_space c = zsum 0 (v_zones v) (consumed v d o) /\
    sum_len live <= alloc_space c <= zsum 0 (v_zones v) (fun z => snd (v_lim v z) - fst (v_lim v z)).
Proof.
  intros G R. apply reach_inv in R; [|exact G]. pose proof (i_live _ _ _ _ _ R) as L.
  destruct (i_dev _ _ _ _ _ R) as (d & E & Hd).
  pose proof (advance_inv v c live cl tr R) as (_ & He & _).
  exists d, (fst (advance c)), (snd (advance c)). split; [exact E|]. split; [cbn [step]; now destruct (advance c)|].
  rewrite (i_alloc _ _ _ _ _ R). split.
  - apply zsum_ext. intros z Hz. unfold consumed. rewrite Hd.
    pose proof (i_zone _ _ _ _ _ R z Hz) as ZI.
    set (o := snd (advance c)) in *.
    assert (X : existsb (fun p => match p with VErase y => y =? z | _ => false end) o = true <-> exists s e, view (fs c) z = ZDead s e).
    { rewrite <- He. rewrite existsb_exists. split.
      - intros (p & Hp & Ep). destruct p; try discriminate. apply Z.eqb_eq in Ep. now subst.
      - intros H. exists (VErase z). split; [exact H|apply Z.eqb_refl]. }
    destruct (view (fs c) z) eqn:V; cbn [dz_v alloc_v zone_inv] in *.
    + reflexivity.
    + destruct (existsb _ o) eqn:Y; [reflexivity|].
      assert (false = true); [|discriminate]. apply X. eauto.
    + unfold zstart. lia.
    + destruct (existsb _ o) eqn:Y; [|unfold zstart, zend in *; lia].
      destruct (proj1 X eq_refl) as (s & e & ?). discriminate.
  - assert (B : forall z, 0 <= z < v_zones v -> lsum v z live <= alloc_v (view (fs c) z) <= snd (v_lim v z) - fst (v_lim v z) ).
    { intros z Hz. pose proof (i_zone _ _ _ _ _ R z Hz) as ZI. pose proof (g_size v G z Hz).
      destruct (view (fs c) z) as [|s e|oz x|x] eqn:V; cbn [alloc_v zone_inv] in *; unfold zstart, zend in *; lia. }
    split.
    + rewrite <- (lsum_total v live).
      * apply zsum_le. intros z Hz. apply B. exact Hz.
      * intros e He'. destruct (l_in v live L e He') as (_ & z & Hz & Hi & _). eauto.
    + apply zsum_le. intros z Hz. apply B. exact Hz.
Qed.

(** * C15: space maps survive being written and read back *)

(** Everything the free-space map reports about a zone: its state, its write
    pointer, its used space, its freed and total counts and its transactions. *)
Definition zone_report (f : fsm) (z : Z) :=
  (is_empty f z, is_dead f z, is_closed f z, is_open f z,
   option_map (fun oz => (ostart oz, oalloc oz)) (zm_get z (opens f)),
   in_use f z,
   if is_closed f z || is_open f z then lget (zones f) z else None).

Lemma zone_report_view f f' z : rep f -> rep f' -> 0 <= z -> 0 <= use_v (view f z) -> view f' z = view f z ->
  zone_report f' z = zone_report f z.
Proof.
  intros R R' Hz U V. unfold zone_report, is_open.
  rewrite !is_empty_view, !is_dead_view, !is_closed_view, !is_open_view by auto.
  rewrite !in_use_view by (auto; congruence). rewrite V.
  destruct (view f z) eqn:W; cbn [orb].
  - apply view_empty_inv in W, V. f_equal. f_equal. f_equal.
    assert (X : forall g, rep g -> (lget (zones g) z = None \/ exists x, lget (zones g) z = Some x /\ zm_mem z (empties g) = true /\ te x = 0) -> zm_get z (opens g) = None).
    { intros g Rg Hg. destruct (zm_get z (opens g)) eqn:E; [exfalso|reflexivity].
      assert (M : zm_mem z (opens g) = true) by (unfold zm_mem; now rewrite E).
      destruct Hg as [Hg|(x & _ & M' & _)].
      - apply (r_orange g Rg) in M. destruct (lget_some (zones g) z M). congruence.
      - eapply (r_disj g Rg); eauto. }
    now rewrite !X by auto.
  - apply view_dead_inv in W, V. destruct W as (x & _ & M & _), V as (x' & _ & M' & _).
    f_equal. f_equal. f_equal.
    assert (X : forall g, rep g -> zm_mem z (empties g) = true -> zm_get z (opens g) = None).
    { intros g Rg Hg. destruct (zm_get z (opens g)) eqn:E; [exfalso|reflexivity].
      apply (r_disj g Rg z Hg). unfold zm_mem. now rewrite E. }
    now rewrite !X by auto.
  - apply view_open_inv in W, V. destruct W as (E1 & _ & G1), V as (E2 & _ & G2). now rewrite E1, E2, G1, G2.
  - apply view_closed_inv in W, V. destruct W as (E1 & _ & G1), V as (E2 & _ & G2). now rewrite E1, E2, G1, G2.
Qed.

Theorem C15_remount_preserves_space_map v c live tr :
  geometry v -> reach v c live true tr ->
  exists c' o, step v c CRemount = Some (c', RUnit, o) /\
    (forall z, 0 <= z < v_zones v -> zone_report (fs c') z = zone_report (fs c) z) /\
    alloc_space c' = alloc_space c /\ used c' = used c.
Proof.
  intros G R. pose proof (reach_inv v G _ _ _ _ R) as I.
  destruct (reopen_spec v G c live tr I) as (c' & o & E & I' & V & A).
  exists c', o. assert (S : step v c CRemount = Some (c', RUnit, o)) by (cbn [step]; rewrite E; reflexivity).
  split; [exact S|]. split; [|split; [exact A|]].
  - intros z Hz. apply zone_report_view; [apply I|apply I'|lia| |apply V].
    rewrite (zone_inv_use v live z); [|apply (live_pos v live (i_live _ _ _ _ _ I))|now apply (i_zone _ _ _ _ _ I)].
    apply lsum_nonneg. apply (live_pos v live (i_live _ _ _ _ _ I)).
  - rewrite (C14_used_is_exact v c live true tr G R).
    apply (C14_used_is_exact v c' live true (tr ++ o) G).
    change live with (live_next live CRemount RUnit) at 1. eapply reach_step; [exact R|reflexivity|exact S].
Qed.

(** * C16: reclaiming zones *)

(** Proved part: when the last extent of a closed zone is freed, the next
    transaction erases the zone, and any write not larger than a zone then
    succeeds.  "Closed" is the device's state of the zone: full. *)
Theorem C16_reclaimed_partial v c live cl tr d z lba len c1 r1 o1 :
  geometry v -> reach v c live cl tr -> dev_run v (fun _ => DEmpty) tr = Some d ->
  d z = DFull -> In (lba, len) live -> fst (v_lim v z) <= lba < snd (v_lim v z) -> 0 <= z < v_zones v ->
  (forall e, In e (remove_one (lba, len) live) -> disjoint e (fst (v_lim v z), snd (v_lim v z) - fst (v_lim v z))) ->
  step v c (CFree lba len) = Some (c1, r1, o1) ->
  exists c2 o2, step v c1 CAdvance = Some (c2, RUnit, o2) /\ In (VErase z) o2 /\
    forall space txg, 0 < space -> 0 <= txg < TXG_MAX ->
      (forall y, 0 <= y < v_zones v -> space <= snd (v_lim v y) - fst (v_lim v y)) ->
      exists c3 o3 lba', step v c2 (CWrite space txg) = Some (c3, RWrite (WOk lba'), o3).
Proof.
  intros G R Hd Df Hin Hl Hz Hgone E.
  pose proof (reach_inv v G _ _ _ _ R) as I.
  assert (R1 : reach v c1 (live_next live (CFree lba len) r1) false (tr ++ o1)).
  { exact (reach_step v _ _ _ _ (CFree lba len) _ _ _ R Hin E). }
  cbn [live_next] in R1. pose proof (reach_inv v G _ _ _ _ R1) as I1.
  set (live' := remove_one (lba, len) live) in *.
  (* no extent is left in the zone *)
  pose proof (i_live _ _ _ _ _ I1) as L1.
  assert (Hs0 : lsum v z live' = 0).
  { unfold lsum. assert (F : filter (inz v z) live' = []).
    { destruct (filter (inz v z) live') as [|e r] eqn:F; [reflexivity|exfalso].
      assert (He : In e (filter (inz v z) live')) by (rewrite F; now left).
      apply filter_In in He. destruct He as [He1 He2].
      destruct (l_in v live' L1 e He1) as (Hp & z' & Hz' & I' & S1 & S2).
      assert (z = z') by (eapply inz_unique; eauto). subst z'. unfold zstart, zend in *.
      apply (Hgone e He1 (fst e)). cbn [fst snd]. lia. }
    now rewrite F. }
  (* the zone is dead *)
  assert (Hdead : exists s t, view (fs c1) z = ZDead s t).
  { cbn [step] in E. destruct (free v lba len c) as [c1'|] eqn:Ef; [|discriminate]. injection E as <- <- <-.
    assert (Hzo : v_zone_of v lba = Some z) by (apply (g_zone_of v G); auto).
    unfold free in Ef. rewrite Hzo in Ef. cbn [obind] in Ef.
    destruct (i_dev _ _ _ _ _ I) as (d' & E' & Hv). rewrite Hd in E'. injection E' as <-.
    rewrite Hv in Df.
    pose proof (i_zone _ _ _ _ _ I z Hz) as ZI. pose proof (i_live _ _ _ _ _ I) as L.
    assert (Hi : inz v z (lba, len) = true) by (apply inz_spec; auto).
    pose proof (lsum_pos v z live (lba, len) (live_pos v live L) Hin Hi) as Hp.
    pose proof (live_pos v live L _ Hin) as Hp2. cbn [snd] in Hp, Hp2.
    pose proof (lsum_remove v z (lba, len) live Hin) as Hr. rewrite Hi in Hr. cbn [snd] in Hr. fold live' in Hr.
    destruct (view (fs c) z) as [|s e|oz x|x] eqn:V; cbn [dz_v zone_inv] in *; try discriminate; [lia|].
    pose proof (g_size v G z Hz) as Hsz. unfold U32MAX, zstart, zend in *.
    destruct (free_spec (fs c) z len (i_rep _ _ _ _ _ I)) as (f1 & Ef1 & C1); [rewrite V; lia|lia|].
    rewrite Ef1 in Ef. cbn [obind] in Ef. rewrite V in C1. cbn [free_v] in C1.
    pose proof (c_rep _ _ _ _ C1) as Rf1.
    rewrite is_closed_view in Ef by (auto; lia). rewrite (c_at _ _ _ _ C1) in Ef.
    rewrite in_use_view in Ef; [|auto|lia|rewrite (c_at _ _ _ _ C1); cbn [use_v freed total]; lia].
    rewrite (c_at _ _ _ _ C1) in Ef. cbn [obind use_v freed total] in Ef.
    destruct (Z.eqb_spec (total x - (freed x + len)) 0); [|lia].
    destruct (kill_spec f1 z _ Rf1 (c_at _ _ _ _ C1)) as (f2 & Ek & C2).
    rewrite Ek in Ef. cbn [obind] in Ef. injection Ef as <-. cbn [fs].
    exists 0, 1. apply C2. }
  pose proof (advance_inv v c1 live' false _ I1) as (I2 & He & Hvw).
  destruct (advance c1) as [c2 o2] eqn:Ea. cbn [fst snd] in *.
  exists c2, o2. split; [cbn [step]; now rewrite Ea|]. split; [now apply He|].
  intros space txg Hsp Htx Hfit.
  assert (Hsp2 : space < 2^32).
  { specialize (Hfit z Hz). pose proof (g_size v G z Hz). unfold U32MAX in *. lia. }
  destruct (write_inv v G c2 live' false _ space txg I2 ltac:(lia) Htx) as (c3 & r3 & o3 & E3 & _ & W & _).
  destruct W as [lba' ->].
  - exists z. split; [exact Hz|]. rewrite Hvw. destruct Hdead as (s & t & ->). reflexivity.
  - exact Hfit.
  - exists c3, o3, lba'. cbn [step]. rewrite E3. reflexivity.
Qed.

(** The full claim is false: blocks freed while their zone is still open are
    lost for good once the zone is closed. *)

(** Five zones of ten LBAs at 0, 10, ... *)
Definition v5 : vdev :=
  mkvdev 5 (fun z => (10 * z, 10 * z + 10)) (fun l => if (0 <=? l) && (l <? 50) then Some (l / 10) else None) 2.

Lemma div10 l z : l / 10 = z <-> 10 * z <= l < 10 * z + 10.
Proof.
  split; intros H.
  - pose proof (Z.div_mod l 10 ltac:(lia)). pose proof (Z.mod_pos_bound l 10 ltac:(lia)). lia.
  - symmetry. apply Z.div_unique_pos with (r := l - 10 * z); lia.
Qed.

Lemma v5_geometry : geometry v5.
Proof.
  split; cbn [v5 v_zones v_lim v_zone_of v_stripe fst snd]; try lia.
  - intros z Hz. unfold U32MAX. lia.
  - intros lba z. destruct ((0 <=? lba) && (lba <? 50)) eqn:B.
    + split.
      * intros [= H]. apply div10 in H. lia.
      * intros [H1 H2]. f_equal. now apply div10.
    + split; [discriminate|]. intros [H1 H2]. lia.
Qed.

Fixpoint run (v : vdev) (c : cluster) (live : list extent) (cl : bool) (tr : list vop) (ops : list cop) : option (cluster * list extent * bool * list vop) :=
  match ops with
  | [] => Some (c, live, cl, tr)
  | op :: r => match step v c op with
               | Some (c', res, o) => run v c' (live_next live op res) (clean_next op) (tr ++ o) r
               | None => None
               end
  end.

Fixpoint all_legal (v : vdev) (c : cluster) (live : list extent) (cl : bool) (ops : list cop) : Prop :=
  match ops with
  | [] => True
  | op :: r => legal live cl op /\ match step v c op with
               | Some (c', res, o) => all_legal v c' (live_next live op res) (clean_next op) r
               | None => True
               end
  end.

Lemma run_reach v ops : forall c live cl tr c' live' cl' tr', reach v c live cl tr -> all_legal v c live cl ops ->
  run v c live cl tr ops = Some (c', live', cl', tr') -> reach v c' live' cl' tr'.
Proof.
  induction ops as [|op ops IH]; intros c live cl tr c' live' cl' tr' R A E; cbn [run all_legal] in *.
  - injection E as <- <- <- <-. exact R.
  - destruct A as [A1 A2]. destruct (step v c op) as [[[c1 r1] o1]|] eqn:Es; [|discriminate].
    eapply IH; [|exact A2|exact E]. eapply reach_step; eauto.
Qed.

Lemma run_app v ops1 : forall c live cl tr ops2, run v c live cl tr (ops1 ++ ops2) =
  match run v c live cl tr ops1 with Some (c', live', cl', tr') => run v c' live' cl' tr' ops2 | None => None end.
Proof.
  induction ops1 as [|op ops IH]; intros c live cl tr ops2; [reflexivity|].
  cbn [app run]. destruct (step v c op) as [[[c1 r1] o1]|]; [apply IH|reflexivity].
Qed.

Definition write_free (z : Z) : list cop := [CWrite 6 1; CFree (10 * z) 6].
Definition leak_ops : list cop := concat (map write_free [0; 1; 2; 3; 4]) ++ [CWrite 6 1].

(** Once all zones are closed and the client holds nothing, no operation ever
    makes room again. *)
Lemma stuck_forever v : geometry v -> forall ops c tr cl c' live' cl' tr',
  reach v c [] cl tr -> (forall z, 0 <= z < v_zones v -> exists x, view (fs c) z = ZClosed x) ->
  all_legal v c [] cl ops -> run v c [] cl tr ops = Some (c', live', cl', tr') ->
  reach v c' [] cl' tr' /\ live' = [] /\ (forall z, 0 <= z < v_zones v -> exists x, view (fs c') z = ZClosed x).
Proof.
  intros G. induction ops as [|op ops IH]; intros c tr cl c' live' cl' tr' R H A E; cbn [run all_legal] in *.
  - injection E as <- <- <- <-. auto.
  - destruct A as [A1 A2]. destruct (step v c op) as [[[c1 r1] o1]|] eqn:Es; [|discriminate].
    pose proof (reach_inv v G _ _ _ _ R) as I.
    pose proof (reach_step v _ _ _ _ op _ _ _ R A1 Es) as R1.
    assert (X : live_next [] op r1 = [] /\ (forall z, 0 <= z < v_zones v -> exists x, view (fs c1) z = ZClosed x)).
    { destruct op as [space txg|lba len| | |]; cbn [legal step live_next] in *.
      - destruct A1 as [L1 L2]. destruct (write_inv v G c [] cl tr space txg I L1 L2) as (c2 & r & o & Ew & _ & _ & W).
        rewrite Ew in Es. cbn [obind] in Es. injection Es as <- <- <-. destruct (W H) as [-> W2].
        split; [reflexivity|]. intros z Hz. rewrite W2. auto.
      - contradiction.
      - pose proof (advance_inv v c [] cl tr I) as (_ & _ & Hv). destruct (advance c) as [c2 o]. cbn [fst] in Hv.
        injection Es as <- <- <-. split; [reflexivity|]. intros z Hz. rewrite Hv. destruct (H z Hz) as [x ->]. eauto.
      - destruct (sync_inv v G c [] cl tr I) as (c2 & o & Ew & _ & Hv). cbn [step] in Ew. rewrite Ew in Es. injection Es as <- <- <-.
        split; [reflexivity|]. intros z Hz. rewrite Hv. destruct (H z Hz) as [x ->]. cbn. eauto.
      - subst cl. destruct (reopen_spec v G c [] tr I) as (c2 & o & Ew & _ & Hv & _). rewrite Ew in Es. injection Es as <- <- <-.
        split; [reflexivity|]. intros z Hz. rewrite Hv. auto. }
    destruct X as [X1 X2]. rewrite X1 in *. eapply IH; eauto.
Qed.

Theorem C16_leaked_zones_refuted :
  exists v c cl tr, geometry v /\ reach v c [] cl tr /\
    forall ops c' live' cl' tr', all_legal v c [] cl ops -> run v c [] cl tr ops = Some (c', live', cl', tr') ->
      live' = [] /\ forall space txg, 0 < space < 2^32 -> 0 <= txg < TXG_MAX ->
        exists c'' o, step v c' (CWrite space txg) = Some (c'', RWrite WNoSpace, o).
Proof.
  destruct (run v5 (cluster_create v5) [] false [] leak_ops) as [[[[c live] cl] tr]|] eqn:E; [|vm_compute in E; discriminate].
  assert (Hlive : live = []) by (vm_compute in E; injection E as <- <- <- <-; reflexivity).
  assert (Hcl : forall z, In z [0;1;2;3;4] -> exists x, view (fs c) z = ZClosed x).
  { vm_compute in E. injection E as <- <- <- <-. intros z Hz.
    repeat (destruct Hz as [<-|Hz]; [vm_compute; eauto|]). destruct Hz. }
  assert (A : all_legal v5 (cluster_create v5) [] false leak_ops).
  { vm_compute. intuition congruence. }
  assert (Hrch : reach v5 c live cl tr).
  { eapply run_reach; [apply reach_init|exact A|exact E]. }
  subst live. exists v5, c, cl, tr. split; [exact v5_geometry|]. split; [exact Hrch|].
  intros ops c' live' cl' tr' Al Er.
  assert (Hcl' : forall z, 0 <= z < v_zones v5 -> exists x, view (fs c) z = ZClosed x).
  { intros z Hz. apply Hcl. cbn [v5 v_zones] in Hz. cbn [In]. lia. }
  destruct (stuck_forever v5 v5_geometry ops c tr cl c' live' cl' tr' Hrch Hcl' Al Er) as (R' & L' & H').
  split; [exact L'|]. intros space txg Hs Ht.
  destruct (write_inv v5 v5_geometry c' [] cl' tr' space txg (reach_inv v5 v5_geometry _ _ _ _ R') Hs Ht) as (c2 & r & o & Ew & _ & _ & W).
  destruct (W H') as [-> _]. exists c2, o. cbn [step]. rewrite Ew. reflexivity.
Qed.

(** * The order of flushes matters *)

(** [Cluster::flush] takes the index of the space map copy to write, and writes
    only what changed since the last flush, whichever copy that went to.  A write
    between flushing copy 0 and flushing copy 1 is therefore recorded in copy 1
    only, and opening the cluster reads copy 0: the write's LBAs are handed out
    again.  (The database holds its transaction lock across both flushes, which
    is why [CSync] above is one operation.) *)
Theorem C15_interleaved_flush_refuted :
  exists v c0 c1 c2 c3 c4 c5 lba o0 o1 o2 o3 o4,
    geometry v /\ c0 = cluster_create v /\
    flush v 0 c0 = Some (c1, o0) /\
    write v 4 1 c1 = Some (c2, WOk lba, o1) /\
    flush v 1 c2 = Some (c3, o2) /\
    reopen v c3 = Some (c4, o3) /\
    write v 4 2 c4 = Some (c5, WOk lba, o4).
Proof.
  exists v5, (cluster_create v5).
  destruct (flush v5 0 (cluster_create v5)) as [[c1 o0]|] eqn:E0; [|vm_compute in E0; discriminate].
  destruct (write v5 4 1 c1) as [[[c2 r] o1]|] eqn:E1; [|vm_compute in E0; injection E0 as <- <-; vm_compute in E1; discriminate].
  destruct (flush v5 1 c2) as [[c3 o2]|] eqn:E2.
  2: { vm_compute in E0; injection E0 as <- <-; vm_compute in E1; injection E1 as <- <- <-; vm_compute in E2; discriminate. }
  destruct (reopen v5 c3) as [[c4 o3]|] eqn:E3.
  2: { vm_compute in E0; injection E0 as <- <-; vm_compute in E1; injection E1 as <- <- <-; vm_compute in E2; injection E2 as <- <-; vm_compute in E3; discriminate. }
  destruct (write v5 4 2 c4) as [[[c5 r'] o4]|] eqn:E4.
  2: { vm_compute in E0; injection E0 as <- <-; vm_compute in E1; injection E1 as <- <- <-; vm_compute in E2; injection E2 as <- <-;
       vm_compute in E3; injection E3 as <- <-; vm_compute in E4; discriminate. }
  assert (r = WOk 0 /\ r' = WOk 0) as [-> ->].
  { vm_compute in E0; injection E0 as <- <-; vm_compute in E1; injection E1 as <- <- <-; vm_compute in E2; injection E2 as <- <-;
    vm_compute in E3; injection E3 as <- <-; vm_compute in E4; injection E4 as <- <- <-. split; reflexivity. }
  exists c1, c2, c3, c4, c5, 0, o0, o1, o2, o3, o4.
  split; [exact v5_geometry|]. split; [reflexivity|]. split; [reflexivity|]. split; [exact E1|].
  split; [exact E2|]. split; [exact E3|exact E4].
Qed.

(** * A concrete history *)

(** Writes that fill, close and free zones, a transaction boundary, a sync in the
    middle of a stripe, and a remount. *)
Definition demo_ops : list cop :=
  [CWrite 6 1; CWrite 4 1; CWrite 5 2; CFree 0 6; CWrite 7 2; CFree 6 4; CAdvance; CWrite 3 3; CSync; CRemount; CWrite 2 4; CFree 10 5].

Example demo_legal : all_legal v5 (cluster_create v5) [] false demo_ops.
Proof. vm_compute. intuition congruence. Qed.

Example demo_run :
  match run v5 (cluster_create v5) [] false [] demo_ops with
  | Some (c, live, cl, tr) =>
      live = [(0, 2); (27, 3); (20, 7)] /\ used c = Some 12 /\ alloc_space c = 12 /\
      tr = [VOpen 0; VWrite 0 0 6; VWrite 0 6 4; VFinish 0; VOpen 1; VWrite 1 10 5; VFinish 1; VOpen 2;
            VWrite 2 20 7; VErase 0; VWrite 2 27 3; VFlush 2 0; VFlush 2 0; VReopen 2 10; VFinish 2; VOpen 0; VWrite 0 0 2]
  | None => False
  end.
Proof. vm_compute. intuition. Qed.

Print Assumptions C13_never_panics.
Print Assumptions C13_live_extents_disjoint.
Print Assumptions C13_erase_only_free.
Print Assumptions C13_no_overlap_without_erase.
Print Assumptions C56_zone_protocol.
Print Assumptions C14_used_is_exact.
Print Assumptions C14_allocated_is_exact.
Print Assumptions C15_remount_preserves_space_map.
Print Assumptions C15_interleaved_flush_refuted.
Print Assumptions C16_reclaimed_partial.
Print Assumptions C16_leaked_zones_refuted.
