(** Properties C47 and C62: zone boundaries, and gapless filling of zones. *)
From Coq Require Import Znumtheory.
From Verif Require Import Common PrimeS_Model PrimeS_Proofs PrimeS_Proofs2 PrimeS_Props
  Zones_Model Zones_Proofs.

(** ** Specification vocabulary *)

(** An LBA lies within limits (first, one past the last). *)
Definition within (l : Z * Z) (lba : Z) : Prop := fst l <= lba < snd l.

(** A zone map is consistent: the zone reported for an LBA is the one whose limits
    contain it. *)
Definition consistent (limits : Z -> Z * Z) (zone_of : Z -> option Z) : Prop :=
  forall lba z, 0 <= lba -> (zone_of lba = Some z <-> 0 <= z /\ within (limits z) lba).

(** The LBAs in front of the first zone hold, per copy, a label of four LBAs and
    one LBA of spacemap per 255 zones, for two copies. *)
Definition label_area (size lpz : Z) : Z :=
  let zones := (size + lpz - 1) / lpz in 2 * (4 + (zones + 254) / 255).

(** A chunk is stored entirely within the given disk limits. *)
Definition chunk_within (L : layout) (cs : Z) (l : Z * Z) (x : chunkid) : Prop :=
  fst l <= l_offset (id2loc L x) * cs /\ (l_offset (id2loc L x) + 1) * cs <= snd l.

(** The stripe that RAID address [lba] belongs to. *)
Definition lba_stripe (L : layout) (cs lba : Z) : Z := lba / (cs * (lk L - lf L)).

(** ** C47: file-backed disks *)

Lemma div_ceil_eq a b : 0 < b -> div_ceil a b = (a + b - 1) / b.
Proof.
  intros Hb. unfold div_ceil. pose proof (Z.div_mod a b ltac:(lia)) as E.
  pose proof (Z.mod_pos_bound a b Hb) as B.
  destruct (Z.ltb_spec 0 (a mod b)).
  - replace (a + b - 1) with ((a mod b - 1) + (a / b + 1) * b) by (symmetry; rewrite E at 1; ring).
    rewrite Z.div_add by lia. rewrite (Z.div_small (a mod b - 1)) by lia. lia.
  - replace (a + b - 1) with ((b - 1) + (a / b) * b)
      by (symmetry; rewrite E at 1; replace (a mod b) with 0 by lia; ring).
    rewrite Z.div_add by lia. rewrite (Z.div_small (b - 1)) by lia. lia.
Qed.

Lemma reserved_eq v : 0 < vf_lpz v -> vf_reserved v = label_area (vf_size v) (vf_lpz v).
Proof.
  intros H. unfold vf_reserved, label_area, spacemap_space, LABEL_COUNT, LABEL_LBAS, SPACEMAP_ZONES_PER_LBA.
  rewrite (div_ceil_eq (vf_size v)) by lia. rewrite div_ceil_eq by lia. cbn zeta.
  replace ((vf_size v + vf_lpz v - 1) / vf_lpz v + 255 - 1)
    with ((vf_size v + vf_lpz v - 1) / vf_lpz v + 254) by lia. reflexivity.
Qed.

Lemma reserved_pos v : 0 < vf_lpz v -> 0 <= vf_size v -> 8 <= vf_reserved v.
Proof.
  intros H1 H2. rewrite reserved_eq by assumption. unfold label_area.
  assert (0 <= (vf_size v + vf_lpz v - 1) / vf_lpz v) by (apply Z.div_pos; lia).
  assert (0 <= ((vf_size v + vf_lpz v - 1) / vf_lpz v + 254) / 255) by (apply Z.div_pos; lia).
  cbn zeta. lia.
Qed.

Lemma vf_consistent v : 0 < vf_lpz v -> 0 <= vf_size v -> label_area (vf_size v) (vf_lpz v) <= vf_lpz v ->
  consistent (vf_zone_limits v) (vf_lba2zone v).
Proof.
  intros Hl Hs Hr lba z Hlba. rewrite <- reserved_eq in Hr by assumption.
  pose proof (reserved_pos v Hl Hs) as H8.
  unfold vf_lba2zone, vf_zone_limits, within.
  pose proof (Z.div_mod lba (vf_lpz v) ltac:(lia)) as E.
  pose proof (Z.mod_pos_bound lba (vf_lpz v) Hl) as B.
  assert (0 <= lba / vf_lpz v) by (apply Z.div_pos; lia).
  rewrite Z.geb_leb. destruct (Z.leb_spec (vf_reserved v) lba) as [Hge|Hlt]; split.
  - intros [= <-]. split; [assumption|]. destruct (Z.eqb_spec (lba / vf_lpz v) 0) as [E0|E0]; cbn [fst snd].
    + rewrite E0 in E. lia.
    + nia.
  - intros [Hz Hw]. f_equal. destruct (Z.eqb_spec z 0) as [E0|E0]; cbn [fst snd] in Hw.
    + rewrite Z.div_small by lia. lia.
    + assert (Hq : z * vf_lpz v <= lba < (z + 1) * vf_lpz v) by exact Hw.
      symmetry. apply (Z.div_unique_pos lba (vf_lpz v) z (lba - z * vf_lpz v)); lia.
  - discriminate.
  - intros [Hz Hw]. exfalso. destruct (Z.eqb_spec z 0) as [E0|E0]; cbn [fst snd] in Hw; nia.
Qed.

(** The zones of a disk whose label area fits into its first zone: contiguous,
    disjoint, consistent with [lba2zone]; exactly the label area is outside; and
    the zones that exist cover the whole disk. *)
Theorem C47_file_zones_partial : forall v,
  0 < vf_lpz v -> 0 <= vf_size v -> label_area (vf_size v) (vf_lpz v) <= vf_lpz v ->
  consistent (vf_zone_limits v) (vf_lba2zone v) /\
  (forall z, 0 <= z -> snd (vf_zone_limits v z) = fst (vf_zone_limits v (z + 1))) /\
  (forall z z' lba, 0 <= lba -> 0 <= z -> 0 <= z' ->
     within (vf_zone_limits v z) lba -> within (vf_zone_limits v z') lba -> z = z') /\
  (forall lba, 0 <= lba -> (vf_lba2zone v lba = None <-> lba < label_area (vf_size v) (vf_lpz v))) /\
  (forall lba, label_area (vf_size v) (vf_lpz v) <= lba < vf_size v ->
     exists z, 0 <= z < vf_zones v /\ within (vf_zone_limits v z) lba).
Proof.
  intros v Hl Hs Hr. pose proof (vf_consistent v Hl Hs Hr) as HC.
  split; [exact HC|]. split; [|split; [|split]].
  - intros z Hz. unfold vf_zone_limits. destruct (Z.eqb_spec (z + 1) 0); [lia|].
    destruct (Z.eqb_spec z 0) as [E0|E0]; cbn [fst snd]; [rewrite E0; lia|reflexivity].
  - intros z z' lba Hlba Hz Hz' H1 H2.
    pose proof (proj2 (HC lba z Hlba) (conj Hz H1)). pose proof (proj2 (HC lba z' Hlba) (conj Hz' H2)).
    congruence.
  - intros lba Hlba. rewrite <- reserved_eq by assumption. unfold vf_lba2zone. rewrite Z.geb_leb.
    destruct (Z.leb_spec (vf_reserved v) lba); split; intros; try discriminate; try reflexivity; lia.
  - intros lba Hlba. exists (lba / vf_lpz v).
    rewrite <- reserved_eq in Hlba by assumption. pose proof (reserved_pos v Hl Hs).
    assert (Ez : vf_lba2zone v lba = Some (lba / vf_lpz v)).
    { unfold vf_lba2zone. rewrite Z.geb_leb. destruct (Z.leb_spec (vf_reserved v) lba); [reflexivity|lia]. }
    apply HC in Ez; [|lia]. destruct Ez as [H0 Hw]. split; [|exact Hw]. split; [exact H0|].
    unfold vf_zones. rewrite div_ceil_eq by assumption.
    assert (lba / vf_lpz v + 1 <= (vf_size v + vf_lpz v - 1) / vf_lpz v); [|lia].
    replace (lba / vf_lpz v + 1) with ((lba + 1 * vf_lpz v) / vf_lpz v) by (rewrite Z.div_add by lia; lia).
    apply Z.div_le_mono; lia.
Qed.

(** Default zone size (65536 LBAs) on a disk of 10^9 LBAs. *)
Example C47_file_ex :
  let v := VF 1000000000 65536 in
  label_area (vf_size v) (vf_lpz v) = 128 /\ vf_zones v = 15259 /\
  vf_zone_limits v 0 = (128, 65536) /\ vf_zone_limits v 3 = (196608, 262144) /\
  vf_lba2zone v 127 = None /\ vf_lba2zone v 196607 = Some 2 /\ vf_lba2zone v 196608 = Some 3.
Proof. vm_compute. repeat split; reflexivity. Qed.

(** Without the premise the claim is false, and nothing enforces it: a disk
    created with zones of 10 LBAs has so many zones that its label area spills
    into zone 1. *)
Theorem C47_labels_in_zone_refuted : exists v lba z,
  0 < vf_lpz v /\ 0 <= z < vf_zones v /\ within (vf_zone_limits v z) lba /\
  lba < label_area (vf_size v) (vf_lpz v) /\ vf_lba2zone v lba = None.
Proof. exists (VF 2560 10), 11, 1. vm_compute. repeat split; congruence. Qed.

(** The last zone need not end where the disk ends. *)
Theorem C47_past_the_end_refuted : exists v lba z,
  0 < vf_lpz v /\ label_area (vf_size v) (vf_lpz v) <= vf_lpz v /\
  0 <= z < vf_zones v /\ within (vf_zone_limits v z) lba /\ vf_size v <= lba.
Proof. exists (VF 250 100), 299, 2. vm_compute. repeat split; congruence. Qed.

(** ** C47: declustered RAID *)

Section Raid.
Context (L : layout) (HL : legal L) (cs : Z) (Hcs : 0 < cs).

Lemma lba_stripe_bounds lba s : 0 <= lba ->
  (s * zm L * cs <= lba <-> s <= lba_stripe L cs lba) /\
  (lba < s * zm L * cs <-> lba_stripe L cs lba < s).
Proof.
  intros Hlba. pose proof (zm_bound L HL) as Hm. unfold lba_stripe. fold (zm L).
  set (w := cs * zm L). assert (Hw : 0 < w) by (apply Z.mul_pos_pos; lia).
  replace (s * zm L * cs) with (s * w) by (unfold w; ring).
  pose proof (Z.div_mod lba w ltac:(lia)). pose proof (Z.mod_pos_bound lba w Hw).
  split; split; intros; nia.
Qed.

Lemma lba_stripe_nonneg lba : 0 <= lba -> 0 <= lba_stripe L cs lba.
Proof.
  intros H. pose proof (zm_bound L HL) as Hm. unfold lba_stripe. fold (zm L).
  apply Z.div_pos; [lia|]. apply Z.mul_pos_pos; lia.
Qed.

(** Data chunk of an address. *)
Lemma lba_data_stripe lba : 0 <= lba -> chunk_exists L (Data (lba / cs)) /\
  stripe_of L (Data (lba / cs)) = lba_stripe L cs lba.
Proof.
  intros H. pose proof (zm_bound L HL) as Hm. assert (0 <= lba / cs) by (apply Z.div_pos; lia).
  split; [cbn; assumption|].
  destruct (chunk_split L HL (Data (lba / cs))) as (b & _ & _ & _ & _ & E); [cbn; assumption|].
  rewrite <- E. cbn [address]. unfold lba_stripe. fold (zm L). apply Z.div_div; lia.
Qed.

Lemma zone_exact dl z : 0 <= fst (dl z) -> cs <= snd (dl z) ->
  exists l, raid_zone_limits L cs dl z = Some l /\
    forall lba, 0 <= lba ->
      (within l lba <-> forall x, chunk_exists L x -> stripe_of L x = lba_stripe L cs lba ->
                                  chunk_within L cs (dl z) x).
Proof.
  intros H1 H2. destruct (dl z) as [b e] eqn:E. cbn [fst snd] in *.
  destruct (limits_spec L HL cs dl z b e Hcs E H1 H2) as (lo & hi & El & Hlo & Hhi & Slo & Shi).
  exists (lo * zm L * cs, hi * zm L * cs). split; [exact El|]. intros lba Hlba.
  unfold within, chunk_within. cbn [fst snd].
  destruct (lba_stripe_bounds lba lo Hlba) as [X1 _]. destruct (lba_stripe_bounds lba hi Hlba) as [_ X2].
  pose proof (lba_stripe_nonneg lba Hlba) as Hs.
  rewrite X1, X2. rewrite (Slo _ Hs), (Shi _ Hs). split.
  - intros [A1 A2] x Hx Ex. split; auto.
  - intros A. split; intros x Hx Ex; apply A; assumption.
Qed.

End Raid.

(** An address belongs to a RAID zone exactly if every chunk of its stripe, data
    and parity, lies entirely in that zone of its disk.  In particular the search
    for the limits always succeeds. *)
Theorem C47_raid_exact : forall L cs dl z,
  legal L -> 0 < cs -> 0 <= fst (dl z) -> cs <= snd (dl z) ->
  exists l, raid_zone_limits L cs dl z = Some l /\
    forall lba, 0 <= lba ->
      (within l lba <-> forall x, chunk_exists L x -> stripe_of L x = lba_stripe L cs lba ->
                                  chunk_within L cs (dl z) x).
Proof. intros L cs dl z HL Hcs. apply zone_exact; assumption. Qed.

(** If the disks' zone map is consistent, so is the RAID's: zones are disjoint and
    the zone of an address is the one whose limits contain it. *)
Theorem C47_raid_zones : forall L cs dl dz,
  legal L -> 0 < cs -> consistent dl dz ->
  (forall z, 0 <= z -> 0 <= fst (dl z) /\ cs <= snd (dl z)) ->
  (forall lba, 0 <= lba -> exists r, raid_lba2zone L cs dl dz lba = Some r /\
     forall z, r = Some z <-> 0 <= z /\ exists l, raid_zone_limits L cs dl z = Some l /\ within l lba) /\
  (forall z z' l l' lba, 0 <= lba -> 0 <= z -> 0 <= z' ->
     raid_zone_limits L cs dl z = Some l -> raid_zone_limits L cs dl z' = Some l' ->
     within l lba -> within l' lba -> z = z').
Proof.
  intros L cs dl dz HL Hcs HC Hdl.
  assert (Hrow : forall lba z l, 0 <= lba -> 0 <= z -> raid_zone_limits L cs dl z = Some l -> within l lba ->
            0 <= l_offset (id2loc L (Data (lba / cs))) * cs /\
            dz (l_offset (id2loc L (Data (lba / cs))) * cs) = Some z).
  { intros lba z l Hlba Hz El Hw. destruct (Hdl z Hz) as [D1 D2].
    destruct (zone_exact L HL cs Hcs dl z D1 D2) as (l' & El' & S). rewrite El in El'. injection El' as <-.
    pose proof (proj1 (S lba Hlba) Hw) as Hw'.
    destruct (lba_data_stripe L HL cs Hcs lba Hlba) as [Hx Hsx]. destruct (Hw' _ Hx Hsx) as [W1 W2].
    assert (H0 : 0 <= l_offset (id2loc L (Data (lba / cs))) * cs) by lia. split; [exact H0|].
    apply HC; [exact H0|]. split; [exact Hz|]. split; [exact W1|]. lia. }
  split.
  - intros lba Hlba. unfold raid_lba2zone.
    assert (H0 : 0 <= l_offset (id2loc L (Data (lba / cs))) * cs).
    { assert (H1 : 0 <= lba / cs) by (apply Z.div_pos; lia).
      destruct (C03_repetition_fills_its_rows L (Data (lba / cs)) HL H1) as [_ [H2 _]].
      destruct (coord_ex L (Data (lba / cs)) HL H1) as (c & Hc & Ec).
      pose proof (id2loc_valid L (proj1 (legal_valid L) HL) c Hc) as [_ H3]. rewrite Ec in H3.
      apply Z.mul_nonneg_nonneg; lia. }
    destruct (dz (l_offset (id2loc L (Data (lba / cs))) * cs)) as [t|] eqn:Ed.
    + pose proof Ed as Ed'. apply HC in Ed'; [|exact H0]. destruct Ed' as [Ht _].
      destruct (Hdl t Ht) as [D1 D2]. destruct (zone_exact L HL cs Hcs dl t D1 D2) as (l & El & S).
      rewrite El. destruct l as [lo hi]. eexists. split; [reflexivity|]. intros z.
      destruct ((lba >=? lo) && (lba <? hi)) eqn:Eb.
      * apply andb_true_iff in Eb. split.
        { intros [= <-]. split; [exact Ht|]. exists (lo, hi). split; [exact El|]. unfold within; cbn; lia. }
        intros (Hz & l & El' & Hw). destruct (Hrow lba z l Hlba Hz El' Hw) as [_ E2]. congruence.
      * apply andb_false_iff in Eb. split; [discriminate|].
        intros (Hz & l & El' & Hw). destruct (Hrow lba z l Hlba Hz El' Hw) as [_ E2].
        assert (z = t) by congruence. subst z. rewrite El in El'. injection El' as <-.
        unfold within in Hw; cbn in Hw. lia.
    + eexists. split; [reflexivity|]. intros z. split; [discriminate|].
      intros (Hz & l & El' & Hw). destruct (Hrow lba z l Hlba Hz El' Hw) as [_ E2]. congruence.
  - intros z z' l l' lba Hlba Hz Hz' El El' Hw Hw'.
    destruct (Hrow lba z l Hlba Hz El Hw) as [_ E1]. destruct (Hrow lba z' l' Hlba Hz' El' Hw') as [_ E2].
    congruence.
Qed.

(** The whole stack: a RAID of equally sized file-backed disks. *)
Theorem C47_raid_on_files_partial : forall L cs v,
  legal L -> 0 < cs -> 0 <= vf_size v -> label_area (vf_size v) (vf_lpz v) <= vf_lpz v -> cs <= vf_lpz v ->
  forall lba, 0 <= lba -> exists r,
    raid_lba2zone L cs (vf_zone_limits v) (vf_lba2zone v) lba = Some r /\
    forall z, r = Some z <-> 0 <= z /\ exists l, raid_zone_limits L cs (vf_zone_limits v) z = Some l /\ within l lba.
Proof.
  intros L cs v HL Hcs Hs Hr Hc. assert (Hl : 0 < vf_lpz v) by lia.
  apply (C47_raid_zones L cs); [exact HL|exact Hcs|apply vf_consistent; assumption|].
  intros z Hz. pose proof (reserved_pos v Hl Hs). unfold vf_zone_limits.
  destruct (Z.eqb_spec z 0); cbn [fst snd]; nia.
Qed.

(** Zones are not small: of the disk zone's rows, at most a partial group of k
    rows is lost at either end. *)
Theorem C47_raid_capacity : forall L cs dl z b e lo hi,
  legal L -> 0 < cs -> dl z = (b, e) -> 0 <= b -> cs <= e ->
  raid_zone_limits L cs dl z = Some (lo, hi) ->
  let first_row := (b + cs - 1) / cs in
  let rows_end := e / cs in
  hi - lo >= (rows_end / lk L - (first_row + lk L - 1) / lk L) * ln L * (lk L - lf L) * cs.
Proof.
  intros L cs dl z b e lo hi HL Hcs E Hb He El first_row rows_end.
  destruct (limits_spec L HL cs dl z b e Hcs E Hb He) as (s1 & s2 & El' & H1 & H2 & S1 & S2).
  rewrite El in El'. injection El' as -> ->. fold (zm L).
  pose proof (zm_bound L HL) as Hm. pose proof (k_pos L HL) as Hk.
  (* rows of a stripe *)
  assert (Hrow : forall x, chunk_exists L x ->
    lk L * (stripe_of L x / ln L) <= l_offset (id2loc L x) < lk L * (stripe_of L x / ln L) + lk L).
  { intros x Hx. destruct (coord_ex L x HL Hx) as (c & Hc & <-).
    rewrite stripe_of_coord by assumption. pose proof (proj1 (legal_valid L) HL) as HV.
    rewrite id2loc_id_of by assumption. cbn [l_offset]. pose proof (cnt_bounds L HV c Hc) as Hw.
    destruct Hc as (_ & Hz & Ht & _). unfold co_s.
    replace (co_r c * (ln L * (ln L - 1)) + (ln L * co_z c + co_t c))
      with (co_t c + (co_r c * (ln L - 1) + co_z c) * ln L) by ring.
    rewrite Z.div_add by lia. rewrite (Z.div_small (co_t c)) by lia. unfold depth.
    replace (lk L * (0 + (co_r c * (ln L - 1) + co_z c)))
      with (co_r c * (lk L * (ln L - 1)) + lk L * co_z c) by ring. lia. }
  set (g1 := (first_row + lk L - 1) / lk L). set (g2 := rows_end / lk L).
  assert (Hf : forall w, first_row <= w -> b <= w * cs).
  { intros w Hw. unfold first_row in Hw. pose proof (Z.div_mod (b + cs - 1) cs ltac:(lia)).
    pose proof (Z.mod_pos_bound (b + cs - 1) cs Hcs). nia. }
  assert (Hf0 : 0 <= first_row) by (apply Z.div_pos; lia).
  assert (Hg1 : 0 <= g1) by (apply Z.div_pos; lia).
  assert (Hg1' : first_row <= lk L * g1).
  { unfold g1. pose proof (Z.div_mod (first_row + lk L - 1) (lk L) ltac:(lia)).
    pose proof (Z.mod_pos_bound (first_row + lk L - 1) (lk L) ltac:(lia)). lia. }
  assert (Hr0 : 0 <= rows_end) by (apply Z.div_pos; lia).
  assert (Hg2 : 0 <= g2) by (apply Z.div_pos; lia).
  assert (Hg2' : lk L * g2 <= rows_end).
  { unfold g2. apply Z.mul_div_le. lia. }
  assert (Hlo : s1 <= g1 * ln L).
  { apply S1; [nia|]. intros x Hx Ex. specialize (Hrow x Hx). rewrite Ex, Z.div_mul in Hrow by lia.
    apply Hf. lia. }
  assert (Hhi : g2 * ln L <= s2).
  { destruct (Z.eq_dec g2 0) as [E0|E0]; [rewrite E0; lia|].
    assert (g2 * ln L - 1 < s2); [|lia].
    apply S2; [nia|]. intros x Hx Ex. specialize (Hrow x Hx). rewrite Ex in Hrow.
    replace ((g2 * ln L - 1) / ln L) with (g2 - 1) in Hrow.
    2:{ symmetry. replace (g2 * ln L - 1) with ((ln L - 1) + (g2 - 1) * ln L) by ring.
        rewrite Z.div_add by lia. rewrite Z.div_small by lia. lia. }
    assert (Hw : l_offset (id2loc L x) + 1 <= rows_end) by nia.
    unfold rows_end in Hw. pose proof (Z.mul_div_le e cs Hcs). nia. }
  assert (Hw : 0 < zm L * cs) by (apply Z.mul_pos_pos; lia).
  replace (s2 * zm L * cs - s1 * zm L * cs) with ((s2 - s1) * (zm L * cs)) by ring.
  replace ((g2 - g1) * ln L * zm L * cs) with ((g2 * ln L - g1 * ln L) * (zm L * cs)) by ring.
  apply Z.le_ge. apply Z.mul_le_mono_nonneg_r; lia.
Qed.

(** Erasing a zone erases its limits on every disk (vdev_raid.rs:2062-2072); no
    LBA of a stripe that belongs to another zone is among them. *)
Theorem C47_erase_isolated_partial : forall L cs v z z' l lba x p,
  legal L -> 0 < cs -> 0 <= vf_size v -> label_area (vf_size v) (vf_lpz v) <= vf_lpz v -> cs <= vf_lpz v ->
  0 <= z -> 0 <= z' -> z <> z' -> 0 <= lba ->
  raid_zone_limits L cs (vf_zone_limits v) z = Some l -> within l lba ->
  chunk_exists L x -> stripe_of L x = lba_stripe L cs lba ->
  l_offset (id2loc L x) * cs <= p < (l_offset (id2loc L x) + 1) * cs ->
  ~ within (vf_zone_limits v z') p.
Proof.
  intros L cs v z z' l lba x p HL Hcs Hs Hr Hc Hz Hz' Hne Hlba El Hw Hx Ex Hp Hwp.
  assert (Hl : 0 < vf_lpz v) by lia. pose proof (reserved_pos v Hl Hs).
  assert (Hd : forall z, 0 <= z -> 0 <= fst (vf_zone_limits v z) /\ cs <= snd (vf_zone_limits v z)).
  { intros y Hy. unfold vf_zone_limits. destruct (Z.eqb_spec y 0); cbn [fst snd]; nia. }
  destruct (Hd z Hz) as [D1 D2].
  destruct (zone_exact L HL cs Hcs _ z D1 D2) as (l' & El' & S). rewrite El in El'. injection El' as <-.
  destruct (proj1 (S lba Hlba) Hw x Hx Ex) as [W1 W2].
  destruct (C47_file_zones_partial v Hl Hs Hr) as (_ & _ & HD & _).
  apply Hne. apply (HD z z' p); auto; [lia|]. unfold within. lia.
Qed.

(** 7 disks, stripes of 4 with 2 parity chunks, chunks of 16 LBAs, zones of 1000:
    neither end of zone 1 is on a chunk boundary, and some stripes belong to no
    zone. *)
Example C47_raid_ex :
  let L := Layout 7 4 2 in let v := VF 100000 1000 in
  legal L /\ label_area (vf_size v) (vf_lpz v) <= vf_lpz v /\
  raid_zone_limits L 16 (vf_zone_limits v) 0 = Some (96, 3456) /\
  raid_zone_limits L 16 (vf_zone_limits v) 1 = Some (3552, 6976) /\
  raid_lba2zone L 16 (vf_zone_limits v) (vf_lba2zone v) 3455 = Some (Some 0) /\
  raid_lba2zone L 16 (vf_zone_limits v) (vf_lba2zone v) 3500 = Some None /\
  raid_lba2zone L 16 (vf_zone_limits v) (vf_lba2zone v) 3552 = Some (Some 1).
Proof. split; [exact legal_7_4_2|]. vm_compute. repeat split; congruence. Qed.

(** ** C62: zones are filled without gaps *)

(** On every disk the chunks of all stripes from [s] on are the rows from some
    row on. *)
Lemma disk_boundary L s d : legal L -> 0 <= s -> 0 <= d < ln L ->
  exists w, 0 <= w /\ forall x, chunk_exists L x -> l_disk (id2loc L x) = d ->
    (s <= stripe_of L x <-> w <= l_offset (id2loc L x)).
Proof.
  intros HL Hs Hd.
  pose (P := fun w => exists x, chunk_exists L x /\ id2loc L x = Loc d w /\ s <= stripe_of L x).
  (* the chunk in row s *)
  assert (Hge : forall j : nat, forall x, chunk_exists L x -> id2loc L x = Loc d (Z.of_nat j) -> Z.of_nat j <= stripe_of L x).
  { induction j as [|j IH]; intros x Hx Ex.
    - destruct (chunk_split L HL x Hx) as (_ & _ & H & _). lia.
    - destruct (at_loc L HL d (Z.of_nat j) Hd ltac:(lia)) as (y & _ & Hy & Ey).
      pose proof (IH y Hy Ey).
      assert (stripe_of L y < stripe_of L x); [|lia].
      apply (same_disk L HL); [assumption|assumption|rewrite Ex, Ey; reflexivity|rewrite Ex, Ey; cbn [l_offset]; lia]. }
  (* least row with P, by search downwards from row s *)
  assert (Hmain : forall j : nat, (exists x, chunk_exists L x /\ id2loc L x = Loc d (Z.of_nat j) /\ s <= stripe_of L x) ->
     exists w, 0 <= w <= Z.of_nat j /\ (exists x, chunk_exists L x /\ id2loc L x = Loc d w /\ s <= stripe_of L x) /\
       (forall x, chunk_exists L x -> l_disk (id2loc L x) = d -> l_offset (id2loc L x) < w -> stripe_of L x < s)).
  { induction j as [|j IH]; intros (x & Hx & Ex & Hsx).
    - exists 0. split; [lia|]. split; [exists x; auto|]. intros y Hy Dy Oy.
      destruct (chunk_split L HL y Hy) as (b & Hb & Hs0 & Ey & _).
      pose proof (row_nonneg L HL _ b Hs0 Hb) as H. unfold row in H. rewrite <- Ey in H. lia.
    - destruct (at_loc L HL d (Z.of_nat j) Hd ltac:(lia)) as (y & _ & Hy & Ey).
      destruct (Z.le_gt_cases s (stripe_of L y)) as [Hsy|Hsy].
      + destruct IH as (w & Hw & H1 & H2); [exists y; auto|]. exists w. split; [lia|auto].
      + exists (Z.of_nat (S j)). split; [lia|]. split; [exists x; auto|].
        intros q Hq Dq Oq. destruct (Z.eq_dec (l_offset (id2loc L q)) (Z.of_nat j)) as [E|E].
        * assert (q = y); [|subst q; lia]. apply (C01_layout_injective L); auto. rewrite Ey.
          clear - Dq E. destruct (id2loc L q); cbn in *; congruence.
        * assert (stripe_of L q < stripe_of L y); [|lia].
          apply (same_disk L HL); [assumption|assumption|rewrite Ey; exact Dq|rewrite Ey; cbn [l_offset]; lia]. }
  destruct (at_loc L HL d s Hd Hs) as (x0 & _ & Hx0 & E0).
  destruct (Hmain (Z.to_nat s)) as (w & Hw & (x & Hx & Ex & Hsx) & Hlow).
  { exists x0. split; [exact Hx0|]. rewrite Z2Nat.id by lia. split; [exact E0|].
    pose proof (Hge (Z.to_nat s) x0 Hx0) as H. rewrite Z2Nat.id in H by lia. apply H. exact E0. }
  exists w. split; [lia|]. intros y Hy Dy. split.
  - intros Hsy. destruct (Z.le_gt_cases w (l_offset (id2loc L y))) as [|Hlt]; [assumption|].
    specialize (Hlow y Hy Dy Hlt). lia.
  - intros Hwy. destruct (Z.eq_dec (l_offset (id2loc L y)) w) as [E|E].
    + assert (y = x); [|subst y; exact Hsx]. apply (C01_layout_injective L); auto. rewrite Ex.
      clear - Dy E. destruct (id2loc L y); cbn in *; congruence.
    + assert (stripe_of L x < stripe_of L y); [|lia].
      apply (same_disk L HL); [assumption|assumption|rewrite Ex; symmetry; exact Dy|rewrite Ex; cbn [l_offset]; lia].
Qed.

Lemma first_usable_spec L cs lo d w : legal L -> 0 < cs -> 0 <= d < ln L ->
  (forall x, chunk_exists L x -> l_disk (id2loc L x) = d -> (lo <= stripe_of L x <-> w <= l_offset (id2loc L x))) ->
  forall fuel c, 0 <= c <= w -> w - c < Z.of_nat fuel ->
  first_usable L cs fuel (lo * zm L * cs) d c = Some (w * cs).
Proof.
  intros HL Hcs Hd Hw. pose proof (zm_bound L HL) as Hm. induction fuel as [|fuel IH]; intros c Hc Hf; [lia|].
  cbn [first_usable]. destruct (at_loc L HL d c Hd ltac:(lia)) as (x & -> & Hx & Ex).
  specialize (Hw x Hx). rewrite Ex in Hw. cbn in Hw. specialize (Hw eq_refl).
  destruct (chunk_split L HL x Hx) as (b & Hb & Hs0 & _ & _ & Ea).
  assert (Ec : address x * cs >=? lo * zm L * cs = (lo <=? stripe_of L x)).
  { rewrite <- Ea, Z.geb_leb.
    pose proof (Z.div_mod (address x) (zm L) ltac:(lia)). pose proof (Z.mod_pos_bound (address x) (zm L) ltac:(lia)).
    destruct (Z.leb_spec (lo * zm L * cs) (address x * cs)), (Z.leb_spec lo (address x / zm L)); try reflexivity; exfalso.
    - assert (lo * zm L <= address x) by nia. nia.
    - assert (lo * zm L <= address x) by nia. nia. }
  rewrite Ec. destruct (Z.leb_spec lo (stripe_of L x)) as [H|H].
  - f_equal. f_equal. apply Hw in H. lia.
  - apply IH; [|lia]. split; [lia|]. destruct (Z.le_gt_cases w c); [apply Hw in H0; lia|lia].
Qed.

(** Opening a zone zero-fills, on every disk, from the start of the disk's zone to
    the first row of the RAID zone; from there on every row belongs to the zone's
    stripes, in order: however many stripes have been written, the rows they
    occupy on the disk are an interval that starts where the fill ended. *)
Theorem C62_zones_filled_without_gaps : forall L cs dl z d,
  legal L -> 0 < cs -> 0 <= fst (dl z) -> cs <= snd (dl z) -> 0 <= d < ln L ->
  exists lo fuel0 first_row,
    (exists hi, raid_zone_limits L cs dl z = Some (lo, hi)) /\
    (forall fuel, (fuel0 <= fuel)%nat ->
       open_zone_fill L cs fuel dl z d = Some (fst (dl z), first_row * cs)) /\
    fst (dl z) <= first_row * cs /\
    forall nstripes, 0 <= nstripes -> exists end_row, first_row <= end_row /\
      forall x, chunk_exists L x -> l_disk (id2loc L x) = d ->
        (lba_stripe L cs lo <= stripe_of L x < lba_stripe L cs lo + nstripes <->
         first_row <= l_offset (id2loc L x) < end_row).
Proof.
  intros L cs dl z d HL Hcs H1 H2 Hd. destruct (dl z) as [b e] eqn:E. cbn [fst snd] in *.
  destruct (limits_spec L HL cs dl z b e Hcs E H1 H2) as (lo & hi & El & Hlo & Hhi & Slo & Shi).
  destruct (disk_boundary L lo d HL Hlo Hd) as (w & Hw0 & Hw).
  assert (HB : 0 <= div_ceil b cs /\ forall w, div_ceil b cs <= w <-> b <= w * cs).
  { unfold div_ceil. pose proof (Z.div_mod b cs ltac:(lia)). pose proof (Z.mod_pos_bound b cs Hcs).
    assert (0 <= b / cs) by (apply Z.div_pos; lia).
    destruct (Z.ltb_spec 0 (b mod cs)); split; try lia; intros w'; split; intros; nia. }
  destruct HB as [HB HBw].
  (* the boundary row is inside the disk's zone *)
  assert (HwB : b <= w * cs).
  { destruct (at_loc L HL d w Hd Hw0) as (x & _ & Hx & Ex).
    destruct (chunk_split L HL x Hx) as (_ & _ & Hs0 & _).
    assert (Hsx : lo <= stripe_of L x) by (apply Hw; [exact Hx|rewrite Ex; reflexivity|rewrite Ex; cbn; lia]).
    apply (Slo _ Hs0) with (x := x) in Hsx; auto. rewrite Ex in Hsx. exact Hsx. }
  pose proof (zm_bound L HL) as Hm.
  assert (Els : lba_stripe L cs (lo * zm L * cs) = lo).
  { unfold lba_stripe. fold (zm L). replace (lo * zm L * cs) with (lo * (cs * zm L)) by ring.
    apply Z.div_mul. assert (0 < cs * zm L) by (apply Z.mul_pos_pos; lia). lia. }
  exists (lo * zm L * cs), (S (Z.to_nat (w - div_ceil b cs))), w.
  split; [eauto|]. split; [|split; [exact HwB|]].
  - intros fuel Hfuel. unfold open_zone_fill. rewrite El, E. cbn [fst].
    rewrite (first_usable_spec L cs lo d w HL Hcs Hd Hw).
    + f_equal. f_equal. lia.
    + split; [exact HB|]. apply HBw. exact HwB.
    + apply HBw in HwB. lia.
  - intros ns Hns. rewrite Els.
    destruct (disk_boundary L (lo + ns) d HL ltac:(lia) Hd) as (w2 & Hw20 & Hw2).
    assert (Hle : w <= w2).
    { destruct (at_loc L HL d w2 Hd Hw20) as (y & _ & Hy & Ey).
      assert (Dy : l_disk (id2loc L y) = d) by (rewrite Ey; reflexivity).
      specialize (Hw y Hy Dy). specialize (Hw2 y Hy Dy). rewrite Ey in Hw, Hw2; cbn [l_offset] in Hw, Hw2. lia. }
    exists w2. split; [exact Hle|]. intros x Hx Dx.
    specialize (Hw x Hx Dx). specialize (Hw2 x Hx Dx). lia.
Qed.

Example C62_ex :
  let L := Layout 7 4 2 in let v := VF 100000 1000 in
  map (open_zone_fill L 16 10 (vf_zone_limits v) 1) (zrange 0 7) =
  [Some (1000, 1008); Some (1000, 1024); Some (1000, 1024); Some (1000, 1008);
   Some (1000, 1008); Some (1000, 1024); Some (1000, 1008)].
Proof. vm_compute. reflexivity. Qed.

Print Assumptions C47_file_zones_partial.
Print Assumptions C47_labels_in_zone_refuted.
Print Assumptions C47_past_the_end_refuted.
Print Assumptions C47_raid_exact.
Print Assumptions C47_raid_zones.
Print Assumptions C47_raid_on_files_partial.
Print Assumptions C47_raid_capacity.
Print Assumptions C47_erase_isolated_partial.
Print Assumptions C62_zones_filled_without_gaps.
