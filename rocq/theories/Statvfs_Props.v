(** C98: the free space that statvfs reports. *)
From Coq Require Import Znumtheory.
From Verif Require Import Common ZMap FSM_Model FSM_Spec PrimeS_Model PrimeS_Proofs PrimeS_Proofs2 PrimeS_Props Zones_Model Zones_Proofs Zones_Props
  Pool_Model Pool_Spec Pool_Props Statvfs_Model.

(** C98: if the zones of every cluster fit into its size (see below), the free space is the size of the pool less what clients hold and less what writes
    that had failed before the last import took; it never wraps *)
Theorem C98_statvfs gs w : pgeometry gs -> fold_right Z.add 0 (map cg_size gs) < 2^64 -> preach gs w ->
  exists size free, statvfs gs (w_p w) = (size, free) /\ size = fold_right Z.add 0 (map cg_size gs) /\
    0 <= free <= size /\ free + blocks (w_held w) + blocks (w_lost0 w) = size.
Proof.
  intros PG S R. unfold statvfs. exists (pool_size gs), (pool_size gs - p_used (w_p w)). pose proof (C79_used gs w PG S R) as U.
  pose proof (Pool_Proofs.preach_inv gs PG w R) as I. pose proof (sum_bound gs w PG I) as B. pose proof (blocks_nonneg w gs PG I) as N. fold (pool_size gs) in *.
  unfold written in *. rewrite !Pool_Proofs.blocks_app in B.
  assert (J : forall l, In l [w_fly w; w_held w; w_lost w; w_lost0 w] -> 0 <= blocks l).
  { intros l Hl. apply N. intros x Hx. rewrite !in_app_iff. destruct Hl as [<-|[<-|[<-|[<-|[]]]]]; tauto. }
  pose proof (J (w_fly w) ltac:(cbn; tauto)). pose proof (J (w_held w) ltac:(cbn; tauto)). pose proof (J (w_lost w) ltac:(cbn; tauto)). pose proof (J (w_lost0 w) ltac:(cbn; tauto)).
  rewrite Z.mod_small by lia. repeat split; lia.
Qed.
Example C98_ex : exists w, pgeometry twins /\ fold_right Z.add 0 (map cg_size twins) < 2^64 /\ preach twins w /\ statvfs twins (w_p w) = (100, 68).
Proof.
  destruct (prun twins c79_history (start twins)) as [w|] eqn:E; [|vm_compute in E; discriminate]. exists w. split; [exact twins_geometry|]. split; [reflexivity|].
  split; [eapply prun_reach; [|exact E]; apply preach_init|].
  assert (X : option_map (fun w => p_used (w_p w)) (prun twins c79_history (start twins)) = Some 32) by (vm_compute; reflexivity). rewrite E in X. injection X as X.
  unfold statvfs. rewrite X. reflexivity.
Qed.

(** ** When do the zones fit? *)

Lemma nodup_app {A} (l : list A) : forall m, NoDup l -> NoDup m -> (forall x, In x l -> ~ In x m) -> NoDup (l ++ m).
Proof.
  induction l as [|a l IH]; intros m N M H; [exact M|]. inversion N; subst. cbn. constructor.
  - rewrite in_app_iff. intros [X|X]; [contradiction|]. apply (H a); [now left|exact X].
  - apply IH; auto. intros x Hx. apply H. now right.
Qed.
Lemma nodup_map {A B} (f : A -> B) l : (forall x y, In x l -> In y l -> f x = f y -> x = y) -> NoDup l -> NoDup (map f l).
Proof.
  intros H N. induction N as [|a l Na N IH]; cbn; constructor.
  - rewrite in_map_iff. intros (x & E & Hx). apply Na. rewrite <- (H x a); [exact Hx|now right|now left|exact E].
  - apply IH. intros x y Hx Hy. apply H; now right.
Qed.

Lemma zones_list v : geometry v -> forall n, 0 <= n <= v_zones v -> exists l, NoDup l /\ zlen l = zsum 0 n (fun z => snd (v_lim v z) - fst (v_lim v z)) /\
  forall x, In x l -> exists z, 0 <= z < n /\ within (v_lim v z) x.
Proof.
  intros G n [Hn Hle]. revert Hle. pattern n. apply natlike_ind; [| |exact Hn].
  - intros _. exists []. split; [constructor|]. split; [reflexivity|intros x []].
  - intros m Hm IH Hle. destruct (IH ltac:(lia)) as (l & N & E & I). unfold Z.succ in *.
    exists (l ++ zrange (fst (v_lim v m)) (snd (v_lim v m))). split; [|split].
    + apply nodup_app; [exact N|apply NoDup_zrange|]. intros x Hx Hy. destruct (I x Hx) as (z & Hz & W). apply in_zrange in Hy.
      assert (A : v_zone_of v x = Some z) by (apply (g_zone_of v G); split; [lia|exact W]). assert (B : v_zone_of v x = Some m) by (apply (g_zone_of v G); split; [lia|exact Hy]). rewrite A in B. injection B as B. lia.
    + rewrite zsum_snoc by lia. replace (m + 1 - 1) with m by lia. rewrite <- E. unfold zlen. rewrite app_length, zrange_length. pose proof (g_size v G m ltac:(lia)). lia.
    + intros x Hx. apply in_app_iff in Hx. destruct Hx as [Hx|Hx].
      * destruct (I x Hx) as (z & Hz & W). exists z. split; [lia|exact W].
      * apply in_zrange in Hx. exists m. split; [lia|exact Hx].
Qed.
(** zones that end before [B] have no more than [B] blocks *)
Lemma zones_fit v B : geometry v -> 0 <= B -> (forall z, 0 <= z < v_zones v -> 0 <= fst (v_lim v z) /\ snd (v_lim v z) <= B) -> capacity v <= B.
Proof.
  intros G HB H. destruct (zones_list v G (v_zones v)) as (l & N & E & I); [pose proof (g_zones v G); lia|]. unfold capacity. rewrite <- E.
  assert (Ll : (length l <= length (zrange 0 B))%nat).
  { apply NoDup_incl_length; [exact N|]. intros x Hx. destruct (I x Hx) as (z & Hz & W). apply in_zrange. specialize (H z Hz). unfold within in W. lia. }
  rewrite zrange_length in Ll. unfold zlen. lia.
Qed.

Lemma stripe_of_nth L p : legal L -> 0 <= p -> stripe_of L (nth_chunk L p) = p / lk L.
Proof. intros HL Hp. unfold stripe_of. destruct (proj1 (C04_numbering L HL) p Hp) as (_ & E). now rewrite E. Qed.

(** C98: a RAID device's zones fit into its size if its disks' zones do *)
Theorem C98_raid_fits : forall L cs dl z child, legal L -> 0 < cs -> 0 <= fst (dl z) -> cs <= snd (dl z) <= child ->
  exists lo hi, raid_zone_limits L cs dl z = Some (lo, hi) /\ 0 <= lo /\ hi <= raid_size L cs child.
Proof.
  intros L cs dl z child HL Hcs Hb He. destruct (dl z) as [b e] eqn:Ed. cbn [fst snd] in *.
  destruct (limits_spec L HL cs dl z b e Hcs Ed Hb (proj1 He)) as (lo & hi & El & Hlo & Hhi & _ & Shi). pose proof (zm_bound L HL) as Hm.
  exists (lo * zm L * cs), (hi * zm L * cs). split; [exact El|]. split; [nia|].
  pose proof HL as HV. apply legal_valid in HV. pose proof (k_pos L HL) as Hk. pose proof (depth_pos L HV) as Hd.
  set (D := child / cs).
  assert (HD : 0 <= D) by (apply Z.div_pos; lia).
  assert (Hn : 2 <= ln L). { destruct HL as (P & _). apply prime_ge_2 in P. exact P. }
  (* the chunks of the stripes before [hi] are in rows before [D] *)
  assert (C : hi * lk L <= ln L * D).
  { set (f := fun p => l_disk (id2loc L (nth_chunk L p)) + ln L * l_offset (id2loc L (nth_chunk L p))).
    assert (X : (length (map f (zrange 0 (hi * lk L))) <= length (zrange 0 (ln L * D)))%nat).
    { apply NoDup_incl_length.
      - apply nodup_map; [|apply NoDup_zrange]. intros p q Hp Hq E. apply in_zrange in Hp, Hq. unfold f in E.
        destruct (proj1 (C04_numbering L HL) p ltac:(lia)) as (Ep & Np). destruct (proj1 (C04_numbering L HL) q ltac:(lia)) as (Eq & Nq).
        destruct (C03_repetition_fills_its_rows L _ HL Ep) as (Dp & _). destruct (C03_repetition_fills_its_rows L _ HL Eq) as (Dq & _).
        assert (E1 : l_offset (id2loc L (nth_chunk L p)) = l_offset (id2loc L (nth_chunk L q))) by nia.
        assert (E2 : l_disk (id2loc L (nth_chunk L p)) = l_disk (id2loc L (nth_chunk L q))) by nia.
        assert (E3 : nth_chunk L p = nth_chunk L q). { apply (C01_layout_injective L); auto. destruct (id2loc L (nth_chunk L p)), (id2loc L (nth_chunk L q)). cbn in *. congruence. }
        rewrite <- Np, <- Nq. now rewrite E3.
      - intros x Hx. apply in_map_iff in Hx. destruct Hx as (p & <- & Hp). apply in_zrange in Hp. apply in_zrange. unfold f.
        destruct (proj1 (C04_numbering L HL) p ltac:(lia)) as (Ep & Np). destruct (C03_repetition_fills_its_rows L _ HL Ep) as (Dp & Rp).
        assert (S : 0 <= p / lk L < hi) by (split; [apply Z.div_pos; lia|apply Z.div_lt_upper_bound; lia]).
        pose proof (proj1 (Shi (p / lk L) (proj1 S)) (proj2 S) (nth_chunk L p) Ep (stripe_of_nth L p HL ltac:(lia))) as O.
        assert (Q : l_offset (id2loc L (nth_chunk L p)) + 1 <= D) by (apply Z.div_le_lower_bound; lia).
        assert (Z0 : 0 <= l_offset (id2loc L (nth_chunk L p))). { assert (Rr : 0 <= repetition_of L (nth_chunk L p)); [|clear - Rp Rr Hk Hn; apply Z.le_trans with (repetition_of L (nth_chunk L p) * (lk L * (ln L - 1))); [apply Z.mul_nonneg_nonneg; nia|apply Rp]]. unfold repetition_of. rewrite stripe_of_nth by (auto; lia). apply Z.div_pos; [apply Z.div_pos; lia|nia]. }
        nia. }
    rewrite map_length, !zrange_length in X. nia. }
  unfold raid_size. fold D. apply Z.div_le_lower_bound; [exact Hd|]. unfold depth, datachunks, stripes, gm. fold (zm L) in *. unfold zm in *.
  assert (0 <= (lk L - lf L) * cs * (ln L - 1)) by nia. nia.
Qed.
Theorem C98_raid_capacity : forall L cs dl v child, legal L -> 0 < cs -> cs <= child -> geometry v ->
  (forall z, 0 <= z < v_zones v -> 0 <= fst (dl z) /\ cs <= snd (dl z) <= child /\ raid_zone_limits L cs dl z = Some (v_lim v z)) ->
  capacity v <= raid_size L cs child.
Proof.
  intros L cs dl v child HL Hcs Hc G H. apply zones_fit; [exact G| |].
  - unfold raid_size. pose proof HL as HV. apply legal_valid in HV. pose proof (depth_pos L HV). pose proof (zm_bound L HL) as Hm. assert (2 <= ln L) by (destruct HL as (P & _); now apply prime_ge_2 in P).
    apply Z.div_pos; [|lia]. assert (0 <= child / cs) by (apply Z.div_pos; lia). unfold datachunks, stripes, gm. unfold zm in Hm. assert (0 <= ln L * (ln L - 1)) by nia. repeat apply Z.mul_nonneg_nonneg; lia.
  - intros z Hz. destruct (H z Hz) as (H1 & H2 & E). destruct (C98_raid_fits L cs dl z child HL Hcs H1 H2) as (lo & hi & E' & Hlo & Hhi). rewrite E in E'. injection E' as E'. rewrite E'. auto.
Qed.

(** a pool of one disk *)
Definition disk_vdev (v : vfile) : vdev := mkvdev (vf_zones v) (vf_zone_limits v) (vf_lba2zone v) 1.
(** C98: the zones of a disk whose size is a multiple of the zone size fill it but for the labels *)
Theorem C98_disk_capacity : forall v, 0 < vf_lpz v -> 0 < vf_size v -> (vf_lpz v | vf_size v) -> label_area (vf_size v) (vf_lpz v) <= vf_lpz v ->
  capacity (disk_vdev v) = vf_size v - label_area (vf_size v) (vf_lpz v) /\
  forall z, 0 <= z < vf_zones v -> 0 <= fst (vf_zone_limits v z) /\ snd (vf_zone_limits v z) <= vf_size v.
Proof.
  intros v Hl Hs (n & E) Hr. pose proof (reserved_eq v Hl) as Rq.
  assert (Zn : vf_zones v = n). { unfold vf_zones. rewrite div_ceil_eq by exact Hl. rewrite E. replace (n * vf_lpz v + vf_lpz v - 1) with (vf_lpz v - 1 + n * vf_lpz v) by ring. rewrite Z.div_add by lia. rewrite Z.div_small by lia. lia. }
  assert (Hn : 0 < n) by nia. split.
  - unfold capacity. cbn [disk_vdev v_zones v_lim]. rewrite Zn.
    assert (S : forall k, 1 <= k -> zsum 0 k (fun z => snd (vf_zone_limits v z) - fst (vf_zone_limits v z)) = k * vf_lpz v - label_area (vf_size v) (vf_lpz v)).
    { intros k Hk. replace k with (k - 1 + 1) by lia. pattern (k - 1). apply natlike_ind; [| |lia].
      - rewrite zsum_snoc by lia. rewrite zsum_empty by lia. unfold vf_zone_limits. change (0 + 1 - 1 =? 0) with true. cbn [fst snd]. rewrite Rq. lia.
      - intros j Hj IH. rewrite zsum_snoc by lia. replace (Z.succ j + 1 - 1) with (j + 1) by lia. rewrite IH. unfold vf_zone_limits. destruct (Z.eqb_spec (j + 1) 0); [lia|]. cbn [fst snd]. lia. }
    rewrite S by lia. lia.
  - intros z Hz. rewrite Zn in Hz. unfold vf_zone_limits. pose proof (reserved_pos v Hl ltac:(lia)). destruct (Z.eqb_spec z 0); cbn [fst snd]; nia.
Qed.
Example C98_disk_ex : capacity (disk_vdev (VF 300 100)) = 290.
Proof. vm_compute. reflexivity. Qed.

(** C98: on a disk whose size is not a multiple of the zone size more blocks may be used than the disk has, and almost 2^64 blocks are reported free *)
Theorem C98_wraps_refuted : exists v es w, vf_size v = 250 /\ label_area (vf_size v) (vf_lpz v) <= vf_lpz v /\
  prun [CGeo (disk_vdev v) (vf_size v) 10] es (start [CGeo (disk_vdev v) (vf_size v) 10]) = Some w /\
  statvfs [CGeo (disk_vdev v) (vf_size v) 10] (w_p w) = (250, 2^64 - 40).
Proof.
  set (gs := [CGeo (disk_vdev (VF 250 100)) 250 10]). set (es := put 90 1 ++ put 100 2).
  destruct (prun gs es (start gs)) as [w|] eqn:E; [|vm_compute in E; discriminate].
  exists (VF 250 100), es, w. split; [reflexivity|]. split; [vm_compute; discriminate|]. split; [exact E|].
  assert (X : option_map (fun w => p_used (w_p w)) (prun gs es (start gs)) = Some 290) by (vm_compute; reflexivity). rewrite E in X. injection X as X.
  unfold statvfs. rewrite X. vm_compute. reflexivity.
Qed.

Print Assumptions C98_statvfs.
Print Assumptions C98_raid_fits.
Print Assumptions C98_raid_capacity.
Print Assumptions C98_disk_capacity.
Print Assumptions C98_wraps_refuted.
