(** What the RAID vdev's reads promise, and what they do not.
    vdev_raid.rs: read_at 2223-2231 (the part that goes to the disks), read_at_one 1037-1248, read_at_multi 799-1034, read_at_reconstruction 1507-1679. *)
From Verif Require Import Common FSM_Model PrimeS_Model PrimeS_Proofs2 PrimeS_Props Codec_Model Codec_GF Codec_Props Raid_Model Raid_Recon Raid_World Raid_One Raid_Multi.

(** * Vocabulary *)
(** [V] is the array's contents, byte by byte; disk [d] holds byte [dk d o] at offset [o].  A chunk is on its disk if the disk
    holds, in the chunk's row, the chunk's bytes of [V] or the parity of its stripe. *)
Definition on_disk (L : layout) (cs B : Z) (V : Z -> Z) (dk : Z -> Z -> Z) (x : chunkid) : Prop :=
  forall j, 0 <= j < cs * B -> dk (l_disk (id2loc L x)) (l_offset (id2loc L x) * (cs * B) + j) = nth (Z.to_nat j) (content L cs B V x) 0.
(** an LBA of [lba, elba) is in stripe [t] *)
Definition touches (L : layout) (cs lba elba t : Z) : Prop := exists a, lba <= a < elba /\ t = a / ((lk L - lf L) * cs).
(** a disk that answers a read of the range has the range's chunks *)
Definition truthful (L : layout) (cs B : Z) (V : Z -> Z) (dk : Z -> Z -> Z) (ok : Z -> Z -> bool) (lba elba : Z) : Prop :=
  forall x l, chunk_exists L x -> touches L cs lba elba (stripe_of L x) -> ok (l_disk (id2loc L x)) l = true -> on_disk L cs B V dk x.
(** the caller's buffer holds the array's bytes *)
Definition returned (B : Z) (V : Z -> Z) (lba elba : Z) (mm : mem) : Prop := forall j, 0 <= j < (elba - lba) * B -> mm (0, j) = V (lba * B + j).
Definition bytes (V : Z -> Z) : Prop := forall x, 0 <= V x < 256.
(** the disks in [bad] fail every read *)
Definition except (bad : list Z) : Z -> Z -> bool := fun d _ => negb (existsb (Z.eqb d) bad).
Definition sane (L : layout) (cs B lba elba : Z) : Prop := legal L /\ lk L <= 256 /\ 0 < cs /\ 0 < B /\ 0 <= lba < elba.

(** * Linking the vocabulary to the proofs *)
Local Opaque id2loc nth_chunk.
Lemma right_returned B V lba elba mm : 0 < B -> lba < elba -> get mm (buffer 0 ((elba - lba) * B)) = map V (zrange (lba * B) (elba * B)) <-> returned B V lba elba mm.
Proof.
  intros HB HE. assert (E : map V (zrange (lba * B) (elba * B)) = map (fun j => V (lba * B + j)) (zrange 0 ((elba - lba) * B))).
  { replace (lba * B) with (lba * B + 0) at 1 by lia. replace (elba * B) with (lba * B + (elba - lba) * B) by ring. apply map_zrange_shift. }
  rewrite E. unfold get, buffer. rewrite map_map. unfold returned. split.
  - intros H j Hj. exact (proj1 map_ext_in_iff H j (proj2 (in_zrange _ _ _) Hj)).
  - intros H. apply map_ext_in. intros j Hj. apply in_zrange in Hj. auto.
Qed.
Lemma stripe_chunk L t i : legal L -> 0 <= t -> 0 <= i < lk L -> chunk_exists L (pchunk L t i) /\ stripe_of L (pchunk L t i) = t.
Proof. intros HL Ht Hi. destruct (pchunk_exists L HL t i Ht Hi) as [E N]. split; [exact E|]. unfold stripe_of. rewrite N. rewrite Z.add_comm, Z.div_add, Z.div_small by lia. lia. Qed.
Section Link.
Context (L : layout) (cs B lba elba : Z) (S : sane L cs B lba elba) (V : Z -> Z) (HV : bytes V) (dk : Z -> Z -> Z) (ok : Z -> Z -> bool) (junk : mem) (faulted : Z).
Notation m := (dm L).
Notation k := (lk L).
Notation C := (col_len cs B).
Let HL : legal L := proj1 S.
Let H256 : k <= 256 := proj1 (proj2 S).
Let Hcs : 0 < cs := proj1 (proj2 (proj2 S)).
Let HB : 0 < B := proj1 (proj2 (proj2 (proj2 S))).
Let Hr : 0 <= lba < elba := proj2 (proj2 (proj2 (proj2 S))).
Let Hf := legal_fk L HL.
Let MP := m_range L HL.
Lemma touches_iff t : touches L cs lba elba t <-> lba / (m * cs) <= t <= (elba - 1) / (m * cs).
Proof.
  assert (W : 0 < m * cs) by nia. unfold touches. fold (dm L). split.
  - intros (a & Ha & ->). split; apply Z.div_le_mono; lia.
  - intros [H1 H2]. destruct (Z.eq_dec (lba / (m * cs)) t) as [E|E]; [exists lba; split; [lia|auto]|].
    exists (t * (m * cs)). rewrite Z.div_mul by lia. split; [|reflexivity]. pose proof (Z.div_mod lba (m * cs) ltac:(lia)). pose proof (Z.mod_pos_bound lba (m * cs) W). pose proof (Z.div_mod (elba - 1) (m * cs) ltac:(lia)). pose proof (Z.mod_pos_bound (elba - 1) (m * cs) W). split; nia.
Qed.
Lemma scol_length t i : 0 <= t -> 0 <= i < k -> zlen (scol L cs B V t i) = C.
Proof. intros Ht Hi. apply (zlen_col L cs B HB Hcs Hf H256 lba (fun _ => []) (fun _ => []) (scol L cs B V t)); [apply scol_good; auto|exact Hi]. Qed.
Lemma on_disk_stored t i : 0 <= t -> 0 <= i < k -> on_disk L cs B V dk (pchunk L t i) -> map (fun j => dk (pd L t i) (po L t i * C + j)) (zrange 0 C) = scol L cs B V t i.
Proof.
  intros Ht Hi H. pose proof (scol_length t i Ht Hi) as ZL. assert (CP : 0 < C) by (unfold col_len; nia). apply (nth_ext _ _ 0 0).
  - rewrite map_length, zrange_length. unfold zlen in ZL. lia.
  - intros p Hp. rewrite map_length, zrange_length in Hp. rewrite (nth_indep _ 0 ((fun j => dk (pd L t i) (po L t i * C + j)) 0)) by (rewrite map_length, zrange_length; exact Hp). rewrite (map_nth (fun j => dk (pd L t i) (po L t i * C + j))). rewrite nth_zrange by lia. rewrite Z.add_0_l.
    specialize (H (Z.of_nat p) ltac:(unfold col_len in *; lia)). rewrite Nat2Z.id in H. exact H.
Qed.
Context (T : truthful L cs B V dk ok lba elba).
Lemma stored_ti t i l : lba / (m * cs) <= t <= (elba - 1) / (m * cs) -> 0 <= i < k -> ok (pd L t i) l = true -> map (fun j => dk (pd L t i) (po L t i * C + j)) (zrange 0 C) = scol L cs B V t i.
Proof.
  intros Ht Hi Ho. assert (T0 : 0 <= t) by (assert (0 <= lba / (m * cs)) by (apply Z.div_pos; nia); lia). apply on_disk_stored; auto. destruct (stripe_chunk L t i HL T0 Hi) as [E1 E2]. apply (T _ l E1); [rewrite E2; now apply touches_iff|exact Ho].
Qed.
Lemma Hst_one : lba / (m * cs) = (elba - 1) / (m * cs) -> forall i l, 0 <= i < k -> po L (lba / (m * cs)) i * cs <= l < (po L (lba / (m * cs)) i + 1) * cs -> ok (pd L (lba / (m * cs)) i) l = true -> stored L cs B V dk lba i.
Proof. intros E i l Hi _ Ho. unfold stored. apply (stored_ti _ i l); auto. lia. Qed.
Lemma Hst_multi : forall p l, 0 <= p -> s0 L cs lba <= p / k <= s1 L cs elba -> ok (pdN L p) l = true -> storedN L cs B V dk p.
Proof.
  intros p l Hp Ht Ho. unfold storedN. pose proof (Z.div_mod p k ltac:(lia)) as DM. pose proof (Z.mod_pos_bound p k ltac:(lia)) as MB. assert (E : p = p / k * k + p mod k) by lia.
  assert (E1 : pdN L p = pd L (p / k) (p mod k)) by (rewrite E at 1; reflexivity). assert (E2 : poN L p = po L (p / k) (p mod k)) by (rewrite E at 1; reflexivity). rewrite E1, E2 in *. apply (stored_ti _ _ l); auto.
Qed.
Lemma in_stripe_one : lba / (m * cs) = (elba - 1) / (m * cs) -> in_stripe L cs lba elba.
Proof.
  intros E. assert (W : 0 < m * cs) by nia. pose proof (Z.div_mod lba (m * cs) ltac:(lia)). pose proof (Z.mod_pos_bound lba (m * cs) W). pose proof (Z.div_mod (elba - 1) (m * cs) ltac:(lia)). pose proof (Z.mod_pos_bound (elba - 1) (m * cs) W). unfold in_stripe. rewrite <- E in *. split; [lia|]. split; [lia|]. nia.
Qed.
Notation rda mm := (read_disks_at L cs B dk ok junk faulted mm ((elba - lba) * B) lba).
Lemma rda_cases mm : (lba / (m * cs) = (elba - 1) / (m * cs) /\ rda mm = read_at_one L cs B dk ok junk faulted mm ((elba - lba) * B) lba) \/
  (s0 L cs lba < s1 L cs elba /\ rda mm = read_at_multi L cs B dk ok junk faulted mm ((elba - lba) * B) lba).
Proof.
  unfold read_disks_at. cbv zeta. assert (E : lba + ((elba - lba) * B - 1) / B = elba - 1).
  { assert (((elba - lba) * B - 1) / B = elba - lba - 1); [|lia]. symmetry. apply (Z.div_unique _ _ _ (B - 1)); [left; lia|ring]. }
  rewrite E. rewrite (Z.mul_comm cs m). destruct (Z.eqb_spec (lba / (m * cs)) ((elba - 1) / (m * cs))) as [E1|E1]; [left; auto|right]. split; [|reflexivity]. unfold s0, s1. assert (lba / (m * cs) <= (elba - 1) / (m * cs)) by (apply Z.div_le_mono; nia). lia.
Qed.
End Link.
Lemma pd_inj L t i j : legal L -> 0 <= t -> 0 <= i < lk L -> 0 <= j < lk L -> pd L t i = pd L t j -> i = j.
Proof.
  intros HL Ht Hi Hj E. destruct (Z.eq_dec i j) as [|NE]; [assumption|exfalso]. destruct (stripe_chunk L t i HL Ht Hi) as [E1 E2]. destruct (stripe_chunk L t j HL Ht Hj) as [F1 F2].
  apply (C02_stripe_on_distinct_disks L (pchunk L t i) (pchunk L t j) HL E1 F1); [congruence| |exact E]. intros EQ. destruct (pchunk_exists L HL t i Ht Hi) as [_ N1]. destruct (pchunk_exists L HL t j Ht Hj) as [_ N2]. rewrite EQ in N1. lia.
Qed.
Lemma filter_len_weaken (p q : Z -> bool) l : (forall i, p i = true -> q i = true) -> zlen (filter p l) <= zlen (filter q l).
Proof.
  intros H. induction l as [|x l IH]; cbn [filter]; [lia|]. destruct (p x) eqn:E; [rewrite (H x E), !zlen_cons; lia|]. destruct (q x); rewrite ?zlen_cons; lia.
Qed.
(** at most as many chunks of a stripe fail as there are failing disks *)
Lemma bad_count L bad t n : legal L -> 0 <= t -> 0 <= n <= lk L -> zlen (filter (fun i => existsb (Z.eqb (pd L t i)) bad) (zrange 0 n)) <= zlen bad.
Proof.
  intros HL Ht Hn. unfold zlen. apply inj_le. rewrite <- (map_length (pd L t)). apply NoDup_incl_length.
  - assert (ND : NoDup (filter (fun i => existsb (Z.eqb (pd L t i)) bad) (zrange 0 n))) by (apply NoDup_filter, NoDup_zrange). assert (IN : forall i, In i (filter (fun i => existsb (Z.eqb (pd L t i)) bad) (zrange 0 n)) -> 0 <= i < lk L) by (intros i Hi; apply filter_In in Hi; destruct Hi as [Hi _]; apply in_zrange in Hi; lia).
    revert ND IN. generalize (filter (fun i => existsb (Z.eqb (pd L t i)) bad) (zrange 0 n)) as l. induction l as [|i l IH]; intros ND IN; cbn [map]; constructor.
    + intros H. apply in_map_iff in H. destruct H as (j & E & Hj). assert (j = i) by (apply (pd_inj L t); auto; apply IN; [now right|now left]). subst j. now inversion ND.
    + apply IH; [now inversion ND|]. intros j Hj. apply IN. now right.
  - intros d Hd. apply in_map_iff in Hd. destruct Hd as (i & <- & Hi). apply filter_In in Hi. destruct Hi as [_ Hi]. apply existsb_exists in Hi. destruct Hi as (x & Hx & E). apply Z.eqb_eq in E. now rewrite E.
Qed.
Lemma good_count L bad t n : legal L -> 0 <= t -> 0 <= n <= lk L -> n - zlen bad <= zlen (filter (fun i => negb (existsb (Z.eqb (pd L t i)) bad)) (zrange 0 n)).
Proof.
  intros HL Ht Hn. pose proof (bad_count L bad t n HL Ht Hn) as X. pose proof (filter_split (fun i => existsb (Z.eqb (pd L t i)) bad) (zrange 0 n)) as Y. rewrite zrange_length in Y. unfold zlen in *. lia.
Qed.

(** * C71: reads with children missing *)
(** With up to [lf L] children absent - the number of faulted children is then the number absent - a read of any range returns the array's bytes,
    whatever the absent disks would have held. *)
Theorem C71_reads_survive_absent_children : forall L cs B V dk junk absent mm lba elba,
  sane L cs B lba elba -> bytes V -> NoDup absent -> zlen absent <= lf L ->
  (forall x, chunk_exists L x -> touches L cs lba elba (stripe_of L x) -> ~ In (l_disk (id2loc L x)) absent -> on_disk L cs B V dk x) ->
  exists mm', read_disks_at L cs B dk (except absent) junk (zlen absent) mm ((elba - lba) * B) lba = Some (mm', true) /\ returned B V lba elba mm'.
Proof.
  intros L cs B V dk junk absent mm lba elba S HV _ HA HD. pose proof S as (HL & H256 & Hcs & HB & Hr). pose proof (legal_fk L HL) as Hf. pose proof (m_range L HL) as MP.
  assert (T : truthful L cs B V dk (except absent) lba elba).
  { intros x l Hx Ht Ho. apply HD; auto. unfold except in Ho. apply negb_true_iff in Ho. intros Hin. assert (existsb (Z.eqb (l_disk (id2loc L x))) absent = true) by (apply existsb_exists; exists (l_disk (id2loc L x)); split; [exact Hin|apply Z.eqb_refl]). congruence. }
  pose proof (zlen_nonneg absent) as ZA. destruct (rda_cases L cs B lba elba S dk (except absent) junk (zlen absent) mm) as [[E ->]|[E ->]].
  - pose proof (in_stripe_one L cs B lba elba S E) as I. pose proof (Hst_one L cs B lba elba S V HV dk (except absent) T E) as Hst. assert (T0 : 0 <= lba / (dm L * cs)) by (apply Z.div_pos; nia). destruct (Z.eq_dec (zlen absent) 0) as [Z0|NZ].
    + assert (AE : absent = []) by (destruct absent as [|x l]; [reflexivity|rewrite zlen_cons in Z0; pose proof (zlen_nonneg l); lia]). destruct (healthy_clean L cs B HL HB Hcs H256 V HV dk (except absent) junk (zlen absent) lba elba I Hst mm Z0) as (mm' & E1 & E2).
      * unfold hfailures. rewrite AE. unfold okh, except. cbn [existsb negb]. assert (X : forall l : list Z, filter (fun _ : Z => false) l = []) by (induction l; auto). rewrite X. reflexivity.
      * exists mm'. split; [exact E1|]. apply (right_returned B V lba elba mm'); [lia|lia|exact E2].
    + destruct (degraded L cs B HL HB Hcs H256 V HV dk (except absent) junk (zlen absent) ltac:(lia) lba elba I Hst mm ltac:(lia)) as (mm' & b & E1 & E2 & E3).
      assert (FL : failures L cs (except absent) lba <= lf L).
      { unfold failures, okp, except. pose proof (bad_count L absent (lba / (dm L * cs)) (lk L) HL T0 ltac:(lia)) as X. etransitivity; [|exact HA]. etransitivity; [|exact X]. apply Z.eq_le_incl. f_equal. apply filter_ext. intros i. apply negb_involutive. }
      specialize (E3 FL). subst b. exists mm'. split; [exact E1|]. apply (right_returned B V lba elba mm'); [lia|lia|now apply E2].
  - destruct (multi_read L cs B HL HB Hcs H256 lba elba ltac:(lia) E V HV dk (except absent) junk (zlen absent) ltac:(lia) (Hst_multi L cs B lba elba S V HV dk (except absent) T) mm) as (okd & mm' & b & E1 & O1 & _ & E2 & E3).
    assert (BT : b = true).
    { apply E3. intros t Ht. assert (T0 : 0 <= t) by (assert (0 <= s0 L cs lba) by (unfold s0; apply Z.div_pos; nia); lia). pose proof (good_count L absent t (dm L + fe L (zlen absent)) HL T0) as G. assert (FE : fe L (zlen absent) = zlen absent) by (unfold fe; lia). rewrite FE in *.
      specialize (G ltac:(unfold dm; lia)). pose proof (filter_len_weaken (fun i => negb (existsb (Z.eqb (pd L t i)) absent)) (fun i => okd (pd L t i)) (zrange 0 (dm L + zlen absent))) as X. specialize (X ltac:(intros i Hi; apply O1; intros l; exact Hi)). lia. }
    subst b. exists mm'. split; [exact E1|]. apply (right_returned B V lba elba mm'); [lia|lia|now apply E2].
Qed.

(** * C72: reads with unexpected errors *)
(** Whatever fails - any child, at any LBA, whether or not the array knows it is degraded - a read that reports success has returned the array's bytes. *)
Theorem C72_wrong_data_is_never_returned : forall L cs B V dk ok junk faulted mm mm' lba elba,
  sane L cs B lba elba -> bytes V -> 0 <= faulted -> truthful L cs B V dk ok lba elba ->
  read_disks_at L cs B dk ok junk faulted mm ((elba - lba) * B) lba = Some (mm', true) -> returned B V lba elba mm'.
Proof.
  intros L cs B V dk ok junk faulted mm mm' lba elba S HV HF T. pose proof S as (HL & H256 & Hcs & HB & Hr). pose proof (legal_fk L HL) as Hf. pose proof (m_range L HL) as MP.
  destruct (rda_cases L cs B lba elba S dk ok junk faulted mm) as [[E ->]|[E ->]]; intros R; apply (right_returned B V lba elba mm'); try lia.
  - pose proof (in_stripe_one L cs B lba elba S E) as I. pose proof (Hst_one L cs B lba elba S V HV dk ok T E) as Hst. destruct (Z.eq_dec faulted 0) as [Z0|NZ].
    + destruct (Z.eq_dec (hfailures L cs ok lba elba) 0) as [H0|H0].
      * destruct (healthy_clean L cs B HL HB Hcs H256 V HV dk ok junk faulted lba elba I Hst mm Z0 H0) as (mm2 & E1 & E2). assert (mm2 = mm') by congruence. subst mm2. exact E2.
      * assert (HP : 0 < hfailures L cs ok lba elba) by (unfold hfailures in *; pose proof (zlen_nonneg (filter (fun i => negb (okh L cs ok lba i)) (zrange (i0 L cs lba) (i1 L cs lba elba)))); lia).
        assert (AD : (lba mod cs = 0 /\ elba mod cs = 0) \/ ~ (lba mod cs = 0 /\ elba mod cs = 0)) by lia. destruct AD as [[A1 A2]|A].
        -- destruct (healthy_aligned L cs B HL HB Hcs H256 V HV dk ok junk faulted lba elba I Hst mm Z0 A1 A2) as (mm2 & b & E1 & E2 & _). assert (mm2 = mm' /\ b = true) as [-> ->] by (split; congruence). now apply E2.
        -- destruct (healthy_unaligned L cs B HL HB Hcs H256 V HV dk ok junk faulted lba elba I Hst mm Z0 A HP) as ([N|(mm2 & N)] & _); congruence.
    + destruct (degraded L cs B HL HB Hcs H256 V HV dk ok junk faulted HF lba elba I Hst mm ltac:(lia)) as (mm2 & b & E1 & E2 & _). assert (mm2 = mm' /\ b = true) as [-> ->] by (split; congruence). now apply E2.
  - destruct (multi_read L cs B HL HB Hcs H256 lba elba ltac:(lia) E V HV dk ok junk faulted HF (Hst_multi L cs B lba elba S V HV dk ok T) mm) as (okd & mm2 & b & E1 & _ & _ & E2 & _). assert (mm2 = mm' /\ b = true) as [-> ->] by (split; congruence). now apply E2.
Qed.
(** the range is in one stripe *)
Definition one_stripe (L : layout) (cs lba elba : Z) : Prop := forall t u, touches L cs lba elba t -> touches L cs lba elba u -> t = u.
Lemma one_stripe_eq L cs B lba elba : sane L cs B lba elba -> one_stripe L cs lba elba -> lba / (dm L * cs) = (elba - 1) / (dm L * cs).
Proof. intros (_ & _ & _ & _ & Hr) H. apply H; [exists lba|exists (elba - 1)]; (split; [lia|reflexivity]). Qed.
Lemma failures_bad L cs bad lba : legal L -> 0 < cs -> 0 <= lba -> failures L cs (except bad) lba <= zlen bad.
Proof.
  intros HL Hcs Hl. pose proof (legal_fk L HL) as Hf. pose proof (m_range L HL) as MP. unfold failures, okp, except. etransitivity; [|apply (bad_count L bad (lba / (dm L * cs)) (lk L) HL)]; [|apply Z.div_pos; nia|lia]. apply Z.eq_le_incl. f_equal. apply filter_ext. intros i. apply negb_involutive.
Qed.
(** Within one stripe an array that already knows it is degraded recovers from as many failing disks as it has parity, and so does a
    healthy one if the range is whole chunks. *)
Theorem C72_recovers_within_a_stripe : forall L cs B V dk bad junk faulted mm lba elba,
  sane L cs B lba elba -> bytes V -> 0 <= faulted -> truthful L cs B V dk (except bad) lba elba -> one_stripe L cs lba elba -> zlen bad <= lf L ->
  0 < faulted \/ (lba mod cs = 0 /\ elba mod cs = 0) ->
  exists mm', read_disks_at L cs B dk (except bad) junk faulted mm ((elba - lba) * B) lba = Some (mm', true) /\ returned B V lba elba mm'.
Proof.
  intros L cs B V dk bad junk faulted mm lba elba S HV HF T O HA HC. pose proof S as (HL & H256 & Hcs & HB & Hr). pose proof (one_stripe_eq L cs B lba elba S O) as E0.
  assert (X : exists mm', read_disks_at L cs B dk (except bad) junk faulted mm ((elba - lba) * B) lba = Some (mm', true)).
  { destruct (rda_cases L cs B lba elba S dk (except bad) junk faulted mm) as [[E ->]|[E _]]; [|unfold s0, s1 in E; lia]. pose proof (in_stripe_one L cs B lba elba S E) as I. pose proof (Hst_one L cs B lba elba S V HV dk (except bad) T E) as Hst. pose proof (failures_bad L cs bad lba HL Hcs ltac:(lia)) as FB.
    destruct (Z.eq_dec faulted 0) as [Z0|NZ].
    - destruct HC as [HC|[A1 A2]]; [lia|]. destruct (healthy_aligned L cs B HL HB Hcs H256 V HV dk (except bad) junk faulted lba elba I Hst mm Z0 A1 A2) as (mm2 & b & E1 & _ & E3). rewrite E3 in E1 by lia. eauto.
    - destruct (degraded L cs B HL HB Hcs H256 V HV dk (except bad) junk faulted HF lba elba I Hst mm ltac:(lia)) as (mm2 & b & E1 & _ & E3). rewrite E3 in E1 by lia. eauto. }
  destruct X as (mm' & X). exists mm'. split; [exact X|]. eapply C72_wrong_data_is_never_returned; eauto.
Qed.
(** Across stripes an array recovers from as many failing disks as it knows to be absent, and no more than it has parity for. *)
Theorem C72_recovers_across_stripes : forall L cs B V dk bad junk faulted mm lba elba,
  sane L cs B lba elba -> bytes V -> 0 <= faulted -> truthful L cs B V dk (except bad) lba elba -> ~ one_stripe L cs lba elba -> zlen bad <= Z.min faulted (lf L) ->
  exists mm', read_disks_at L cs B dk (except bad) junk faulted mm ((elba - lba) * B) lba = Some (mm', true) /\ returned B V lba elba mm'.
Proof.
  intros L cs B V dk bad junk faulted mm lba elba S HV HF T O HA. pose proof S as (HL & H256 & Hcs & HB & Hr). pose proof (legal_fk L HL) as Hf. pose proof (m_range L HL) as MP.
  assert (X : exists mm', read_disks_at L cs B dk (except bad) junk faulted mm ((elba - lba) * B) lba = Some (mm', true)).
  { destruct (rda_cases L cs B lba elba S dk (except bad) junk faulted mm) as [[E _]|[E ->]].
    - exfalso. apply O. intros t u Ht Hu. pose proof (proj1 (touches_iff L cs B lba elba S dk (except bad) t) Ht). pose proof (proj1 (touches_iff L cs B lba elba S dk (except bad) u) Hu). lia.
    - destruct (multi_read L cs B HL HB Hcs H256 lba elba ltac:(lia) E V HV dk (except bad) junk faulted HF (Hst_multi L cs B lba elba S V HV dk (except bad) T) mm) as (okd & mm2 & b & E1 & O1 & _ & _ & E3). exists mm2. rewrite E1. do 2 f_equal. apply E3. intros t Ht.
      assert (T0 : 0 <= t) by (assert (0 <= s0 L cs lba) by (unfold s0; apply Z.div_pos; nia); lia). pose proof (good_count L bad t (dm L + fe L faulted) HL T0 ltac:(unfold fe, dm; lia)) as G.
      pose proof (filter_len_weaken (fun i => negb (existsb (Z.eqb (pd L t i)) bad)) (fun i => okd (pd L t i)) (zrange 0 (dm L + fe L faulted))) as X. specialize (X ltac:(intros i Hi; apply O1; intros l; exact Hi)). unfold fe in *. lia. }
  destruct X as (mm' & X). exists mm'. split; [exact X|]. eapply C72_wrong_data_is_never_returned; eauto.
Qed.
(** some of the range is on a failing disk *)
Definition hit (L : layout) (cs lba elba : Z) (bad : list Z) : Prop := exists a, lba <= a < elba /\ In (l_disk (id2loc L (Data (a / cs)))) bad.
Lemma hit_pos L cs B lba elba bad : sane L cs B lba elba -> hit L cs lba elba bad ->
  exists a t i, lba <= a < elba /\ lba / (dm L * cs) <= t <= (elba - 1) / (dm L * cs) /\ 0 <= i < dm L /\ (t * dm L + i) * cs <= a < (t * dm L + i + 1) * cs /\ existsb (Z.eqb (pd L t i)) bad = true.
Proof.
  intros (HL & H256 & Hcs & HB & Hr) (a & Ha & Hin). pose proof (m_range L HL) as MP. exists a, (a / (dm L * cs)), (a / cs - a / (dm L * cs) * dm L). assert (W : 0 < dm L * cs) by nia.
  pose proof (Z.div_mod a cs ltac:(lia)) as D1. pose proof (Z.mod_pos_bound a cs Hcs) as D2. pose proof (Z.div_mod a (dm L * cs) ltac:(lia)) as D3. pose proof (Z.mod_pos_bound a (dm L * cs) W) as D4.
  assert (HI : 0 <= a / cs - a / (dm L * cs) * dm L < dm L) by (clear -D1 D2 D3 D4 Hcs; nia). split; [exact Ha|]. split; [split; apply Z.div_le_mono; lia|]. split; [exact HI|]. replace (a / (dm L * cs) * dm L + (a / cs - a / (dm L * cs) * dm L)) with (a / cs) by lia. split; [clear -D1 D2; nia|].
  apply existsb_exists. exists (l_disk (id2loc L (Data (a / cs)))). split; [exact Hin|]. apply Z.eqb_eq. unfold pd. rewrite pchunk_eq by lia. rewrite (proj2 (Z.ltb_lt _ _)) by lia. do 3 f_equal. lia.
Qed.
(** Otherwise nothing is recovered.  On an array not known to be degraded, a read of part of a chunk from a failing disk brings the system down, *)
Theorem C72_unaligned_error_panics : forall L cs B V dk bad junk mm lba elba,
  sane L cs B lba elba -> bytes V -> truthful L cs B V dk (except bad) lba elba -> one_stripe L cs lba elba -> ~ (lba mod cs = 0 /\ elba mod cs = 0) ->
  zlen bad <= lf L -> hit L cs lba elba bad ->
  read_disks_at L cs B dk (except bad) junk 0 mm ((elba - lba) * B) lba = None.
Proof.
  intros L cs B V dk bad junk mm lba elba S HV T O A HA HH. pose proof S as (HL & H256 & Hcs & HB & Hr). pose proof (m_range L HL) as MP. pose proof (one_stripe_eq L cs B lba elba S O) as E0. destruct (rda_cases L cs B lba elba S dk (except bad) junk 0 mm) as [[E ->]|[E _]]; [|unfold s0, s1 in E; lia].
  pose proof (in_stripe_one L cs B lba elba S E) as I. pose proof (Hst_one L cs B lba elba S V HV dk (except bad) T E) as Hst. apply (healthy_unaligned L cs B HL HB Hcs H256 V HV dk (except bad) junk 0 lba elba I Hst mm eq_refl A).
  - destruct (hit_pos L cs B lba elba bad S HH) as (a & t & i & H1 & H2 & H3 & H4 & H5). assert (ET : t = lba / (dm L * cs)) by lia. rewrite ET in *. clear t ET H2. set (s := lba / (dm L * cs)) in *.
    assert (HIN : i0 L cs lba <= i < i1 L cs lba elba).
    { unfold i0, i1, div_ceil. fold s. pose proof (Z.div_mod lba cs ltac:(lia)). pose proof (Z.mod_pos_bound lba cs Hcs). pose proof (Z.div_mod (elba + cs - 1) cs ltac:(lia)). pose proof (Z.mod_pos_bound (elba + cs - 1) cs Hcs). clear -H H0 H2 H6 H1 H4 Hcs. split; nia. }
    assert (X : In i (filter (fun i => negb (okh L cs (except bad) lba i)) (zrange (i0 L cs lba) (i1 L cs lba elba)))) by (apply filter_In; split; [now apply in_zrange|]; unfold okh, except; fold s; rewrite negb_involutive; exact H5).
    unfold hfailures. destruct (filter _ _); [contradiction|]. rewrite zlen_cons. pose proof (zlen_nonneg l). lia.
  - unfold rfailures. etransitivity; [|exact HA]. etransitivity; [|apply (bad_count L bad (lba / (dm L * cs)) (lk L) HL)]; [|apply Z.div_pos; nia|lia]. apply Z.eq_le_incl. f_equal. apply filter_ext. intros i. unfold okr, okh, okp, except. destruct (in01 L cs lba elba i); apply negb_involutive.
Qed.
(** and a read across stripes that meets a failing disk fails. *)
Theorem C72_healthy_error_across_stripes_fails : forall L cs B V dk bad junk mm lba elba,
  sane L cs B lba elba -> bytes V -> truthful L cs B V dk (except bad) lba elba -> ~ one_stripe L cs lba elba -> hit L cs lba elba bad ->
  exists mm', read_disks_at L cs B dk (except bad) junk 0 mm ((elba - lba) * B) lba = Some (mm', false).
Proof.
  intros L cs B V dk bad junk mm lba elba S HV T O HH. pose proof S as (HL & H256 & Hcs & HB & Hr). pose proof (m_range L HL) as MP. pose proof (legal_fk L HL) as Hf. destruct (rda_cases L cs B lba elba S dk (except bad) junk 0 mm) as [[E _]|[E ->]].
  - exfalso. apply O. intros t u Ht Hu. pose proof (proj1 (touches_iff L cs B lba elba S dk (except bad) t) Ht). pose proof (proj1 (touches_iff L cs B lba elba S dk (except bad) u) Hu). lia.
  - destruct (multi_read L cs B HL HB Hcs H256 lba elba ltac:(lia) E V HV dk (except bad) junk 0 ltac:(lia) (Hst_multi L cs B lba elba S V HV dk (except bad) T) mm) as (okd & mm2 & b & E1 & _ & O2 & _ & E3). exists mm2. rewrite E1. do 2 f_equal. destruct b; [exfalso|reflexivity].
    destruct (hit_pos L cs B lba elba bad S HH) as (a & t & i & H1 & H2 & H3 & H4 & H5). fold (s0 L cs lba) in H2. fold (s1 L cs elba) in H2. pose proof (proj1 E3 eq_refl t H2) as EN. unfold fe in EN. rewrite Z.min_l, Z.add_0_r in EN by lia.
    assert (HX : ~ ~ (a0 L cs lba 0 <= t * lk L + i < e0 L cs elba 0)).
    { intros NV. destruct (healthy_shape L cs HL Hcs H256 lba elba ltac:(lia) E V HV dk (except bad) 0 ltac:(lia) t i eq_refl H2 H3) as (_ & _ & _ & U). specialize (U NV). pose proof (mshape L cs HL Hcs H256 lba elba ltac:(lia) E t i H2 H3) as X. unfold cl in X. rewrite Z.min_l in X by lia. clear - X U H1 H4 Hcs. replace ((t * dm L + i + 1) * cs) with ((t * dm L + i) * cs + cs) in H4 by ring. lia. }
    assert (HP : a0 L cs lba 0 <= t * lk L + i < e0 L cs elba 0) by lia.
    assert (OF : okd (pd L t i) = false). { apply (O2 (t * lk L + i) HP); [|intros l; unfold except; apply negb_false_iff; exact H5]. unfold wanted, fe. rewrite Z.add_comm, Z.mod_add, Z.mod_small by lia. lia. }
    rewrite (zrange_split 0 i (dm L)) in EN by lia. rewrite filter_app, zlen_app in EN. rewrite (zrange_cons i (dm L)) in EN by lia. cbn [filter] in EN. rewrite OF in EN.
    pose proof (count_le_length (fun i => okd (pd L t i)) (zrange 0 i)) as Y0. pose proof (count_le_length (fun i => okd (pd L t i)) (zrange (i + 1) (dm L))) as Y1. unfold count in *. rewrite zrange_length in *. unfold zlen in *. lia.
Qed.

(** * The hypotheses can be met *)
(** For any contents there are disks holding them: every chunk is where the layout puts it. *)
Definition ideal (L : layout) (cs B : Z) (V : Z -> Z) (d o : Z) : Z :=
  match loc2id L (Loc d (o / (cs * B))) with
  | Some x => nth (Z.to_nat (o mod (cs * B))) (content L cs B V x) 0
  | None => 0
  end.
Lemma ideal_on_disk L cs B V x : legal L -> 0 < cs -> 0 < B -> chunk_exists L x -> on_disk L cs B V (ideal L cs B V) x.
Proof.
  intros HL Hcs HB Hx j Hj. unfold ideal. rewrite Z.add_comm, Z.div_add, Z.mod_add, Z.div_small, Z.mod_small by lia. rewrite Z.add_0_l. replace (Loc (l_disk (id2loc L x)) (l_offset (id2loc L x))) with (id2loc L x) by now destruct (id2loc L x). now rewrite C01_layout_invertible.
Qed.
Theorem C71_contents_are_storable : forall L cs B V ok lba elba, sane L cs B lba elba -> truthful L cs B V (ideal L cs B V) ok lba elba.
Proof. intros L cs B V ok lba elba (HL & _ & Hcs & HB & _) x l Hx _ _. now apply ideal_on_disk. Qed.

(** five disks, four-chunk stripes, two of them parity; two-LBA chunks and one-byte LBAs *)
Definition exL : layout := Layout 5 4 2.
Definition exV (x : Z) : Z := (x * 37 + 3) mod 251.
Definition ex_read (bad : list Z) (faulted lba len : Z) : option (mem * bool) := read_disks_at exL 2 1 (ideal exL 2 1 exV) (except bad) (fun _ => 255) faulted (fun _ => 254) len lba.
Definition ex_bytes (len : Z) (r : option (mem * bool)) : option (list Z * bool) := match r with Some (mm, b) => Some (map (fun j => mm (0, j)) (zrange 0 len), b) | None => None end.
Example ex_sane : sane exL 2 1 3 9 /\ sane exL 2 1 4 5 /\ sane exL 2 1 4 8.
Proof.
  assert (legal exL). { split; [|cbn; lia]. destruct (PrimeS_Proofs2.is_prime_spec 5) as (b & H & Hb). vm_compute in H. injection H as <-. apply Hb. reflexivity. }
  unfold sane.
  split; [|split]; (split; [assumption|]); (split; [cbn; lia|]); lia. Qed.
Example ex_bytes_ok : bytes exV.
Proof. intros x. unfold exV. pose proof (Z.mod_pos_bound (x * 37 + 3) 251). lia. Qed.
(** two disks absent: an unaligned read across three stripes still returns the bytes *)
Example C71_ex : ex_bytes 6 (ex_read [0; 3] 2 3 6) = Some (map exV (zrange 3 9), true).
Proof. vm_compute. reflexivity. Qed.
Example C72_ex_one : ex_bytes 4 (ex_read [2; 3] 0 4 4) = Some (map exV (zrange 4 8), true) /\ ex_bytes 1 (ex_read [2; 3] 1 4 1) = Some (map exV (zrange 4 5), true).
Proof. vm_compute. split; reflexivity. Qed.
Example C72_ex_hit : hit exL 2 4 5 [2] /\ hit exL 2 3 9 [2].
Proof. split; exists 4; (split; [lia|left; reflexivity]). Qed.

(** * What a user expects and does not get *)
(** The array tolerates two failures, and yet one disk failing one read brings the system down, *)
Theorem C72_one_error_is_survived_refuted : exists L cs B V dk bad junk mm lba elba,
  sane L cs B lba elba /\ bytes V /\ truthful L cs B V dk (except bad) lba elba /\ lf L = 2 /\ zlen bad = 1 /\
  read_disks_at L cs B dk (except bad) junk 0 mm ((elba - lba) * B) lba = None.
Proof.
  exists exL, 2, 1, exV, (ideal exL 2 1 exV), [2], (fun _ => 255), (fun _ => 254), 4, 5. split; [apply ex_sane|]. split; [apply ex_bytes_ok|]. split; [apply C71_contents_are_storable, ex_sane|]. split; [reflexivity|]. split; [reflexivity|]. vm_compute. reflexivity.
Qed.
(** or fails the read. *)
Theorem C72_one_error_is_recovered_refuted : exists L cs B V dk bad junk mm lba elba mm',
  sane L cs B lba elba /\ bytes V /\ truthful L cs B V dk (except bad) lba elba /\ lf L = 2 /\ zlen bad = 1 /\
  read_disks_at L cs B dk (except bad) junk 0 mm ((elba - lba) * B) lba = Some (mm', false).
Proof.
  exists exL, 2, 1, exV, (ideal exL 2 1 exV), [2], (fun _ => 255), (fun _ => 254), 3, 9.
  assert (O : ~ one_stripe exL 2 3 9). { intros O. assert (X : 0 = 2) by (apply O; [exists 3|exists 8]; (split; [lia|reflexivity])). lia. }
  destruct (C72_healthy_error_across_stripes_fails exL 2 1 exV (ideal exL 2 1 exV) [2] (fun _ => 255) (fun _ => 254) 3 9 (proj1 ex_sane) ex_bytes_ok (C71_contents_are_storable _ _ _ _ _ _ _ (proj1 ex_sane)) O (proj2 C72_ex_hit)) as (mm' & E).
  exists mm'. split; [apply ex_sane|]. split; [apply ex_bytes_ok|]. split; [apply C71_contents_are_storable, ex_sane|]. split; [reflexivity|]. split; [reflexivity|]. exact E.
Qed.

Print Assumptions C71_reads_survive_absent_children.
Print Assumptions C71_contents_are_storable.
Print Assumptions C72_wrong_data_is_never_returned.
Print Assumptions C72_recovers_within_a_stripe.
Print Assumptions C72_recovers_across_stripes.
Print Assumptions C72_unaligned_error_panics.
Print Assumptions C72_healthy_error_across_stripes_fails.
Print Assumptions C72_one_error_is_survived_refuted.
Print Assumptions C72_one_error_is_recovered_refuted.
