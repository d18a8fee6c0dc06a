(** Reading parts of several stripes: where the chunks are, and how the caller's range is cut. *)
From Verif Require Import Common FSM_Model PrimeS_Model PrimeS_Props Codec_Model Codec_GF Codec_Props Raid_Model Raid_Recon Raid_World Raid_One.

Section Rows.
Context (L : layout) (HL : legal L).
Definition locN (p : Z) : chunkid * chunkloc := (nth_chunk L p, id2loc L (nth_chunk L p)).
Definition pdN (p : Z) : Z := l_disk (id2loc L (nth_chunk L p)).
Definition poN (p : Z) : Z := l_offset (id2loc L (nth_chunk L p)).
Local Opaque id2loc nth_chunk.
Lemma pdN_range p : 0 <= p -> 0 <= pdN p < ln L.
Proof. intros H. apply (C03_repetition_fills_its_rows L _ HL). now apply (proj1 (C04_numbering L HL)). Qed.
(** the rows of a disk are filled in the order of the chunks, without gaps *)
Definition cntd (d n : Z) : Z := zlen (filter (fun q => pdN q =? d) (zrange 0 n)).
Lemma cntd_succ d n : 0 <= n -> cntd d (n + 1) = cntd d n + (if pdN n =? d then 1 else 0).
Proof. intros H. unfold cntd. rewrite (zrange_snoc 0 (n + 1)) by lia. replace (n + 1 - 1) with n by lia. rewrite filter_app, zlen_app. cbn [filter]. destruct (pdN n =? d); reflexivity. Qed.
Lemma poN_nonneg p : 0 <= p -> 0 <= poN p.
Proof.
  intros H. destruct (proj1 (C04_numbering L HL) p H) as [Hx Hn]. destruct (C03_repetition_fills_its_rows L _ HL Hx) as [_ R]. unfold poN. assert (0 <= repetition_of L (nth_chunk L p)).
  { unfold repetition_of, stripe_of. rewrite Hn. destruct HL as (? & ? & ?). apply Z.div_pos; [apply Z.div_pos; lia|nia]. }
  destruct HL as (? & ? & ?). cbv zeta in R. nia.
Qed.
Lemma rows p : 0 <= p -> poN p = cntd (pdN p) p.
Proof.
  intros Hp. pose proof (proj1 (C04_numbering L HL)) as NB. set (d := pdN p). set (r := poN p). pose proof (poN_nonneg p Hp) as Hr. fold r in Hr.
  assert (X : length (zrange 0 r) = length (map poN (filter (fun q => pdN q =? d) (zrange 0 p)))).
  { assert (EQ : forall q, In q (filter (fun q => pdN q =? d) (zrange 0 p)) <-> 0 <= q < p /\ pdN q = d) by (intros q; rewrite filter_In, in_zrange, Z.eqb_eq; tauto).
    assert (LT : forall q q', 0 <= q -> q < q' -> pdN q = pdN q' -> poN q < poN q').
    { intros q q' Hq Hlt E. apply C54_rows_follow_chunk_order; auto; try apply NB; try lia. rewrite (proj2 (NB q Hq)), (proj2 (NB q' ltac:(lia))). exact Hlt. }
    apply Nat.le_antisymm.
    - apply NoDup_incl_length; [apply NoDup_zrange|]. intros x Hx. apply in_zrange in Hx. apply in_map_iff. destruct (C03_layout_is_dense L d x HL (pdN_range p Hp) ltac:(lia)) as (c & (C1 & C2) & _).
      destruct (proj2 (C04_numbering L HL) c C1) as [N1 N2]. set (q := chunk_number L c) in *. assert (Pq : pdN q = d) by (unfold pdN; rewrite N2, C2; reflexivity). assert (Rq : poN q = x) by (unfold poN; rewrite N2, C2; reflexivity).
      exists q. split; [exact Rq|]. apply EQ. split; [|exact Pq]. split; [exact N1|]. destruct (Z_lt_ge_dec q p) as [|G]; [assumption|exfalso]. destruct (Z.eq_dec q p) as [E|NE]; [rewrite E in Rq; unfold r in *; lia|].
      assert (poN p < poN q) by (apply LT; [lia|lia|unfold d in Pq; lia]). unfold r in *. lia.
    - apply NoDup_incl_length.
      + assert (ND : NoDup (filter (fun q => pdN q =? d) (zrange 0 p))) by (apply NoDup_filter, NoDup_zrange). revert ND EQ. generalize (filter (fun q => pdN q =? d) (zrange 0 p)). intros l ND EQ.
        assert (E2 : forall q, In q l -> 0 <= q /\ pdN q = d) by (intros q Hq; apply EQ in Hq; tauto). clear EQ. induction l as [|q l IH]; cbn [map]; constructor.
        * intros Hin. apply in_map_iff in Hin. destruct Hin as (q' & E & Hq'). inversion ND; subst. destruct (E2 q (or_introl eq_refl)) as [A1 A2]. destruct (E2 q' (or_intror Hq')) as [B1 B2].
          assert (q <> q') by (intros ->; contradiction). assert (T : q < q' \/ q' < q) by lia. destruct T as [T|T]; [pose proof (LT q q' A1 T ltac:(congruence))|pose proof (LT q' q B1 T ltac:(congruence))]; lia.
        * apply IH; [now inversion ND|]. intros q' Hq'. apply E2. now right.
      + intros x Hx. apply in_map_iff in Hx. destruct Hx as (q & <- & Hq). apply EQ in Hq. apply in_zrange. split; [apply poN_nonneg; lia|]. apply LT; [lia|lia|apply Hq]. }
  unfold cntd, zlen. rewrite zrange_length, map_length in X. fold d. lia.
Qed.
End Rows.

Section Geom.
Context (L : layout) (cs B : Z) (HL : legal L) (HB : 0 < B) (Hcs : 0 < cs) (H256 : lk L <= 256).
Notation m := (dm L).
Notation k := (lk L).
Notation C := (col_len cs B).
Context (lba elba : Z) (H0 : 0 <= lba).
Let Hf := legal_fk L HL.
Let MP := m_range L HL.
Notation W := (m * cs).
Definition s0 : Z := lba / W.
Definition s1 : Z := (elba - 1) / W.
Context (Hs : s0 < s1).
Notation D := (buffer 0 ((elba - lba) * B)).

Lemma W_pos : 0 < W.
Proof. nia. Qed.
Lemma s0_bounds : 0 <= s0 /\ s0 * W <= lba < (s0 + 1) * W.
Proof. unfold s0. pose proof W_pos. pose proof (Z.div_mod lba W ltac:(lia)). pose proof (Z.mod_pos_bound lba W ltac:(lia)). split; [apply Z.div_pos; lia|]. nia. Qed.
Lemma s1_bounds : s1 * W < elba <= (s1 + 1) * W.
Proof. unfold s1. pose proof W_pos. pose proof (Z.div_mod (elba - 1) W ltac:(lia)). pose proof (Z.mod_pos_bound (elba - 1) W ltac:(lia)). nia. Qed.
Lemma lba_elba : lba < elba.
Proof. pose proof s0_bounds. pose proof s1_bounds. pose proof W_pos. nia. Qed.
(** the part of the range in stripe [t] *)
Definition ul (t : Z) : Z := Z.max lba (t * W).
Definition ue (t : Z) : Z := Z.min elba ((t + 1) * W).
Definition DT (t : Z) : slice := sub ((ul t - lba) * B) ((ue t - ul t) * B) D.
Lemma ulue t : s0 <= t <= s1 -> t * W <= ul t < ue t /\ ue t <= (t + 1) * W /\ lba <= ul t /\ ue t <= elba.
Proof.
  intros Ht. pose proof s0_bounds as (_ & A). pose proof s1_bounds as A1. pose proof W_pos as WP. assert (X1 : lba < (t + 1) * W) by (clear -A Ht WP; nia). assert (X2 : t * W < elba) by (clear -A1 Ht WP; nia). pose proof lba_elba. unfold ul, ue. clear -X1 X2 H WP. replace ((t + 1) * W) with (t * W + W) in * by ring. revert X1 X2 WP. generalize (t * W). generalize W. intros. lia.
Qed.
Lemma ul_first : ul s0 = lba.
Proof. pose proof s0_bounds. unfold ul. lia. Qed.
Lemma ue_last : ue s1 = elba.
Proof. pose proof s1_bounds. unfold ue. lia. Qed.
Lemma ul_next t : s0 <= t < s1 -> ul (t + 1) = ue t /\ ue t = (t + 1) * W.
Proof.
  intros Ht. pose proof s0_bounds as (_ & A). pose proof s1_bounds as A1. pose proof W_pos as WP. assert (X1 : lba < (t + 1) * W) by (clear -A Ht WP; nia). assert (X2 : (t + 1) * W < elba) by (clear -A1 Ht WP; nia). unfold ul, ue. lia.
Qed.
Lemma ul_mod t : s0 <= t <= s1 -> ul t / W = t /\ ul t - ul t mod W = t * W.
Proof.
  intros Ht. destruct (ulue t Ht) as (A & A1 & _). pose proof W_pos as WP. assert (E : ul t / W = t). { symmetry. apply (Z.div_unique (ul t) W t (ul t - t * W)); [left|]; nia. }
  split; [exact E|]. pose proof (Z.div_mod (ul t) W ltac:(lia)) as DM. rewrite E in DM. lia.
Qed.
Lemma in_stripe_t t : s0 <= t <= s1 -> in_stripe L cs (ul t) (ue t).
Proof. intros Ht. destruct (ulue t Ht) as (A & A1 & A2 & A3). destruct (ul_mod t Ht) as [_ E]. unfold in_stripe. rewrite E. split; [lia|]. split; [lia|]. replace (t * W + W) with ((t + 1) * W) by ring. exact A1. Qed.
Lemma chkT t i : s0 <= t <= s1 -> chk L cs (ul t) i = (t * m + i) * cs.
Proof. intros Ht. unfold chk. rewrite (proj2 (ul_mod t Ht)). ring. Qed.

Notation pre t i := (pre L cs (ul t) i).
Notation post t i := (post L cs (ul t) (ue t) i).
Notation ulen t i := (ulen L cs (ul t) (ue t) i).
Notation upos t i := (upos L cs (ul t) (ue t) i).
(** first LBA of chunk [i] of stripe [t], and the place in the caller's buffer *)
Definition cl (t i : Z) : Z := (t * m + Z.min i m) * cs.
Definition gp (t i : Z) : Z := Z.max 0 (Z.min (elba - lba) (cl t i - lba)).
Lemma mshape t i : s0 <= t <= s1 -> 0 <= i < m ->
  (cl t i + cs <= lba /\ pre t i = cs /\ post t i = 0 /\ ulen t i = 0 /\ gp t i = 0) \/
  (cl t i < lba < cl t i + cs /\ cl t i + cs <= elba /\ pre t i = lba - cl t i /\ post t i = 0 /\ ulen t i = cl t i + cs - lba /\ gp t i = 0) \/
  (lba <= cl t i /\ cl t i + cs <= elba /\ pre t i = 0 /\ post t i = 0 /\ ulen t i = cs /\ gp t i = cl t i - lba) \/
  (lba <= cl t i < elba /\ elba < cl t i + cs /\ pre t i = 0 /\ post t i = cl t i + cs - elba /\ ulen t i = elba - cl t i /\ gp t i = cl t i - lba) \/
  (elba <= cl t i /\ pre t i = 0 /\ post t i = cs /\ ulen t i = 0 /\ gp t i = elba - lba).
Proof.
  intros Ht Hi. pose proof (shape L cs Hcs (ul t) (ue t) i (in_stripe_t t Ht)) as X. rewrite chkT in X by assumption. destruct (ulue t Ht) as (U1 & U2 & U3 & U4). unfold gp, cl. rewrite Z.min_l by lia.
  assert (A1 : t * W <= (t * m + i) * cs) by (clear -Hi Hcs; nia). assert (A2 : (t * m + i) * cs + cs <= (t + 1) * W) by (clear -Hi Hcs; nia). assert (UL : ul t = lba \/ (ul t = t * W /\ lba <= t * W)) by (unfold ul; lia). assert (UE : ue t = elba \/ (ue t = (t + 1) * W /\ (t + 1) * W <= elba)) by (unfold ue; lia).
  assert (N2 : ~ (ul t = lba /\ ue t = elba /\ ue t < (t + 1) * W /\ t * W < ul t)).
  { intros (E1 & E2 & E3 & E4). pose proof s0_bounds as (_ & K0). pose proof s1_bounds as K1. pose proof W_pos as WP. assert (t = s0) by (clear -K0 E1 E4 U1 U2 Ht WP E3; nia). assert (s1 * W < (s0 + 1) * W) by (subst t; lia). clear - H1 Hs WP. nia. }
  revert X A1 A2 UL UE U1 U2 U3 U4 N2. generalize (pre t i), (post t i), (ulen t i), (upos t i), (ul t), (ue t), (t * W), ((t + 1) * W), ((t * m + i) * cs). clear -Hcs. intros pr po ln up u e tw tw1 c. intros X A1 A2 UL UE U1 U2 U3 U4 N2.
  assert (Y : c + cs <= lba \/ (c < lba /\ lba < c + cs) \/ (lba <= c /\ c + cs <= elba) \/ (lba <= c /\ c < elba /\ elba < c + cs) \/ (lba <= c /\ elba <= c)) by lia.
  destruct Y as [Y|[Y|[Y|[Y|Y]]]].
  - left. rewrite (Z.max_l 0) by lia. destruct UL as [UL|UL]; destruct UE as [UE|UE]; destruct X as [X|[X|[X|[X|[X|X]]]]]; lia.
  - right; left. rewrite (Z.max_l 0) by lia. destruct UL as [UL|UL]; destruct UE as [UE|UE]; destruct X as [X|[X|[X|[X|[X|X]]]]]; lia.
  - do 2 right; left. rewrite Z.min_r, Z.max_r by lia. destruct UL as [UL|UL]; destruct UE as [UE|UE]; destruct X as [X|[X|[X|[X|[X|X]]]]]; lia.
  - do 3 right; left. rewrite Z.min_r, Z.max_r by lia. destruct UL as [UL|UL]; destruct UE as [UE|UE]; destruct X as [X|[X|[X|[X|[X|X]]]]]; lia.
  - do 4 right. rewrite Z.min_l, Z.max_r by lia. destruct UL as [UL|UL]; destruct UE as [UE|UE]; destruct X as [X|[X|[X|[X|[X|X]]]]]; lia.
Qed.
Lemma gp_nonneg t i : 0 <= gp t i <= elba - lba.
Proof. pose proof lba_elba. unfold gp. lia. Qed.
Lemma mshape_parity t i : s0 <= t <= s1 -> m <= i -> pre t i = 0 /\ post t i = cs /\ ulen t i = 0.
Proof.
  intros Ht Hi. pose proof (shape L cs Hcs (ul t) (ue t) i (in_stripe_t t Ht)) as X. rewrite chkT in X by assumption. destruct (ulue t Ht) as (U1 & U2 & U3 & U4). assert (A : (t + 1) * W <= (t * m + i) * cs) by (clear -Hi Hcs; nia). clear -X U1 U2 A Hcs. lia.
Qed.
Lemma gp_succ t i : s0 <= t <= s1 -> 0 <= i -> gp t (i + 1) = gp t i + ulen t i.
Proof.
  intros Ht Hi. destruct (Z_lt_ge_dec i m) as [Hm|Hm].
  - pose proof (mshape t i Ht ltac:(lia)) as X. assert (E : cl t (i + 1) = cl t i + cs) by (unfold cl; rewrite !Z.min_l by lia; ring). pose proof lba_elba as LE. unfold gp at 1. rewrite E. clear -X LE Hcs. revert X. generalize (cl t i), (gp t i), (ulen t i), (pre t i), (post t i). intros. lia.
  - destruct (mshape_parity t i Ht ltac:(lia)) as (_ & _ & ->). unfold gp, cl. rewrite (Z.min_r (i + 1) m), (Z.min_r i m) by lia. lia.
Qed.
Lemma gp_stripe t i : m <= i -> gp (t + 1) 0 = gp t i.
Proof. intros H. unfold gp, cl. rewrite (Z.min_l 0), (Z.min_r i) by lia. do 3 f_equal. ring. Qed.
(** by chunk number *)
Notation tN n := (n / k).
Notation iN n := (n mod k).
Definition gpN (n : Z) : Z := gp (tN n) (iN n).
Lemma tiN t i : 0 <= i < k -> tN (t * k + i) = t /\ iN (t * k + i) = i.
Proof. intros H. rewrite Z.add_comm, Z.div_add, Z.mod_add, Z.div_small, Z.mod_small by lia. lia. Qed.
Lemma nN n : n = tN n * k + iN n /\ 0 <= iN n < k.
Proof. pose proof (Z.div_mod n k ltac:(lia)). pose proof (Z.mod_pos_bound n k ltac:(lia)). lia. Qed.
Lemma gpN_ti t i : 0 <= i < k -> gpN (t * k + i) = gp t i.
Proof. intros H. unfold gpN. destruct (tiN t i H) as [-> ->]. reflexivity. Qed.
Lemma gpN_succ n : s0 <= tN n <= s1 -> gpN (n + 1) = gpN n + ulen (tN n) (iN n).
Proof.
  intros Ht. destruct (nN n) as [E Hi]. unfold gpN at 2. rewrite <- gp_succ by lia. destruct (Z.eq_dec (iN n + 1) k) as [E1|E1].
  - replace (n + 1) with ((tN n + 1) * k + 0) by lia. rewrite gpN_ti by lia. apply gp_stripe. lia.
  - replace (n + 1) with (tN n * k + (iN n + 1)) by lia. rewrite gpN_ti by lia. reflexivity.
Qed.
Lemma gpN_mono p q : p <= q -> gpN p <= gpN q.
Proof.
  intros H. unfold gpN, gp. assert (X : cl (tN p) (iN p) <= cl (tN q) (iN q)); [|clear -X; lia]. unfold cl. destruct (nN p) as [E1 I1]. destruct (nN q) as [E2 I2]. assert (T : tN p <= tN q) by (apply Z.div_le_mono; lia). apply Z.mul_le_mono_nonneg_r; [lia|].
  destruct (Z.eq_dec (tN p) (tN q)) as [ET|NT]; [rewrite ET in *; lia|]. assert (tN p + 1 <= tN q) by lia. assert (tN p * m + m <= tN q * m) by (clear -H1 MP; nia). lia.
Qed.
(** the caller's part of a chunk *)
Notation duT t i := (du L cs B (ul t) (ue t) (DT t) i).
Lemma gp_upos t i : s0 <= t <= s1 -> 0 <= i <= m -> gp t i = ul t - lba + upos t i.
Proof.
  intros Ht Hi. unfold gp, Raid_Recon.upos. rewrite chkT by assumption. unfold cl. rewrite (Z.min_l i m) by lia. destruct (ulue t Ht) as (U1 & U2 & U3 & U4).
  assert (A1 : t * W <= (t * m + i) * cs) by (clear -Hi Hcs; nia). assert (A2 : (t * m + i) * cs <= (t + 1) * W) by (clear -Hi Hcs; nia). unfold ul, ue in *. revert A1 A2 U1 U2 U3 U4. generalize ((t * m + i) * cs) (t * W) ((t + 1) * W). clear. intros. lia.
Qed.
Lemma duT_eq t i : s0 <= t <= s1 -> 0 <= i -> duT t i = sub (gp t i * B) (ulen t i * B) D.
Proof.
  intros Ht Hi. destruct (Z_lt_ge_dec i m) as [Hm|Hm].
  - destruct (ulue t Ht) as (U1 & U2 & U3 & U4). destruct (upos_succ L cs Hcs (ul t) (ue t) i (in_stripe_t t Ht)) as (V1 & V2 & V3 & V4 & V5). pose proof (upos_mono L cs Hcs (ul t) (ue t) i (in_stripe_t t Ht)) as V6. unfold du, DT. rewrite sub_sub.
    + f_equal. rewrite (gp_upos t i Ht ltac:(lia)). ring.
    + clear -U3 HB. nia.
    + clear -V5 HB. nia.
    + clear -V1 HB. nia.
    + rewrite V4 in V6. clear -V6 HB. nia.
  - destruct (mshape_parity t i Ht ltac:(lia)) as (_ & _ & E). unfold du. rewrite E. unfold sub. now rewrite !ztake_0 by lia.
Qed.
Lemma duN_in t i a : s0 <= t <= s1 -> 0 <= i < k -> In a (duT t i) <-> fst a = 0 /\ gpN (t * k + i) * B <= snd a < gpN (t * k + i + 1) * B.
Proof.
  intros Ht Hi. rewrite duT_eq by (auto; lia). pose proof (gpN_succ (t * k + i)) as G. destruct (tiN t i Hi) as [T1 T2]. rewrite T1, T2 in G. specialize (G Ht). rewrite gpN_ti in * by assumption.
  pose proof (gp_nonneg t i). pose proof (gp_nonneg t (i + 1)) as G2. rewrite gp_succ in G2 by lia. destruct (upos_succ L cs Hcs (ul t) (ue t) i (in_stripe_t t Ht)) as (V1 & _).
  rewrite sub_buffer by nia. rewrite G. rewrite in_map_iff. split.
  - intros (j & <- & Hj). apply in_zrange in Hj. cbn [fst snd]. split; [reflexivity|]. clear -Hj. nia.
  - intros (E & Hj). exists (snd a). split; [destruct a; cbn in *; congruence|]. apply in_zrange. clear -Hj. nia.
Qed.
Lemma NoDup_duT t i : s0 <= t <= s1 -> 0 <= i < k -> NoDup (duT t i).
Proof. intros Ht Hi. rewrite duT_eq by (auto; lia). apply NoDup_sub, NoDup_buffer. Qed.
Lemma DT_prefix t : s0 <= t <= s1 -> ztake ((ue t - lba) * B) D = ztake ((ul t - lba) * B) D ++ DT t.
Proof. intros Ht. destruct (ulue t Ht) as (U1 & U2 & U3 & U4). unfold DT, sub. rewrite <- ztake_add by nia. f_equal. ring. Qed.
(** the caller's data is right if it is right in every stripe *)
Lemma all_right V mm : (forall t, s0 <= t <= s1 -> get mm (DT t) = map V (zrange (ul t * B) (ue t * B))) -> get mm D = map V (zrange (lba * B) (elba * B)).
Proof.
  intros H. assert (X : forall n, s0 + Z.of_nat n <= s1 -> get mm (ztake ((ue (s0 + Z.of_nat n) - lba) * B) D) = map V (zrange (lba * B) (ue (s0 + Z.of_nat n) * B))).
  { induction n as [|n IH]; intros Hn.
    - cbn [Z.of_nat]. rewrite Z.add_0_r. rewrite DT_prefix by lia. rewrite get_app, H by lia. rewrite ul_first. rewrite ztake_0 by lia. reflexivity.
    - replace (s0 + Z.of_nat (Datatypes.S n)) with (s0 + Z.of_nat n + 1) in * by lia. set (t := s0 + Z.of_nat n) in *. destruct (ul_next t ltac:(lia)) as [E _]. destruct (ulue t ltac:(lia)) as (U1 & U2 & U3 & U4). destruct (ulue (t + 1) ltac:(lia)) as (U1' & U2' & U3' & U4'). rewrite DT_prefix by lia. rewrite get_app, H by lia. rewrite E in *. rewrite IH by lia. rewrite <- map_app. f_equal. symmetry. apply zrange_split. nia. }
  specialize (X (Z.to_nat (s1 - s0)) ltac:(lia)). replace (s0 + Z.of_nat (Z.to_nat (s1 - s0))) with s1 in X by lia. rewrite ue_last in X. rewrite ztake_all in X; [exact X|]. rewrite zlen_buffer; [lia|]. pose proof lba_elba. nia.
Qed.

(** * The loop that builds the reads *)
Context (V : Z -> Z) (HV : forall x, 0 <= V x < 256).
Context (dk : Z -> Z -> Z) (ok : Z -> Z -> bool) (junk : mem) (faulted : Z) (Hfa : 0 <= faulted).
Local Opaque id2loc nth_chunk.
Definition fe : Z := Z.min faulted (lf L).
Definition sca : Z := (if 0 <? faulted then lba - lba mod (lps L cs) else lba) / cs.
Definition ecid : chunkid :=
  if (0 <? faulted) || (lps L cs - cs <? elba mod (lps L cs)) then
    if faulted <? lf L then Parity (s1 * m) faulted else Data ((s1 + 1) * m)
  else Data (div_ceil elba cs).
Definition a0 : Z := chunk_number L (Data sca).
Definition e0 : Z := chunk_number L ecid.
Lemma fe_range : 0 <= fe <= k - m /\ m + fe <= k.
Proof. unfold fe, dm in *. lia. Qed.
Lemma lps_W : lps L cs = W.
Proof. unfold lps. ring. Qed.
Lemma sca_eq : exists j, sca = s0 * m + j /\ 0 <= j < m /\ a0 = s0 * k + j /\ (0 < faulted -> j = 0) /\ (faulted = 0 -> (s0 * m + j) * cs <= lba < (s0 * m + j + 1) * cs).
Proof.
  pose proof s0_bounds as (K0 & K1). pose proof W_pos as WP. unfold a0, sca. rewrite lps_W. destruct (Z.ltb_spec 0 faulted) as [Hd|Hd].
  - pose proof (Z.div_mod lba W ltac:(lia)) as DM. fold s0 in DM. replace (lba - lba mod W) with (s0 * m * cs) by lia. rewrite Z.div_mul by lia. exists 0. rewrite Z.add_0_r. split; [reflexivity|]. split; [lia|]. split; [|split; lia]. replace (s0 * m) with (s0 * m + 0) by lia. rewrite number_data by (auto; lia). lia.
  - pose proof (Z.div_mod lba cs ltac:(lia)) as DM. pose proof (Z.mod_pos_bound lba cs ltac:(lia)) as MB. exists (lba / cs - s0 * m). assert (J : 0 <= lba / cs - s0 * m < m) by nia. split; [lia|]. split; [exact J|]. split; [|split; [lia|intros _; replace (s0 * m + (lba / cs - s0 * m)) with (lba / cs) by lia; nia]].
    replace (lba / cs) with (s0 * m + (lba / cs - s0 * m)) at 1 by lia. rewrite number_data by auto. lia.
Qed.
Lemma sca_exists : chunk_exists L (Data sca).
Proof. destruct sca_eq as (j & E & J & _). pose proof s0_bounds as (K0 & _). rewrite E. cbn. nia. Qed.
(** where the loop ends *)
Lemma ecid_spec : chunk_exists L ecid /\ s1 * k < e0 <= (s1 + 1) * k /\ (0 < faulted -> e0 = s1 * k + m + fe) /\
  (faulted = 0 -> forall t i, s0 <= t <= s1 -> 0 <= i < m -> (t * k + i < e0 <-> cl t i < elba) /\ (cl t i < elba < cl t i + cs -> e0 = t * k + i + 1)).
Proof.
  pose proof s0_bounds as (K0 & _). pose proof s1_bounds as K1. pose proof W_pos as WP. pose proof fe_range as FR. pose proof lba_elba as LE. unfold e0, ecid. rewrite lps_W.
  assert (R : elba mod W = 0 /\ elba = (s1 + 1) * W \/ 0 < elba mod W /\ elba = s1 * W + elba mod W).
  { destruct (Z.eq_dec elba ((s1 + 1) * W)) as [E|E]; [left; split; [rewrite E; apply Z.mod_mul; lia|exact E]|right]. assert (E2 : elba / W = s1). { symmetry. apply (Z.div_unique elba W s1 (elba - s1 * W)); [left|]; nia. } pose proof (Z.div_mod elba W ltac:(lia)) as DM. rewrite E2 in DM. lia. }
  assert (CL : forall t i, s0 <= t <= s1 -> 0 <= i < m -> t < s1 -> cl t i + cs < elba).
  { intros t i Ht Hi Hlt. unfold cl. rewrite Z.min_l by lia. assert ((t * m + i) * cs + cs <= (t + 1) * W) by (clear -Hi Hcs; nia). assert ((t + 1) * W <= s1 * W) by (clear -Hlt WP; nia). lia. }
  destruct ((0 <? faulted) || (W - cs <? elba mod W)) eqn:EB.
  - assert (EX : (if faulted <? lf L then Parity (s1 * m) faulted else Data ((s1 + 1) * m)) = ecid -> True) by trivial. clear EX.
    assert (N : chunk_exists L (if faulted <? lf L then Parity (s1 * m) faulted else Data ((s1 + 1) * m)) /\ chunk_number L (if faulted <? lf L then Parity (s1 * m) faulted else Data ((s1 + 1) * m)) = s1 * k + m + fe).
    { destruct (Z.ltb_spec faulted (lf L)) as [F|F].
      - rewrite number_parity by auto. split; [|unfold fe; lia]. cbn. fold (dm L). split; [nia|]. split; [now exists s1|lia].
      - split; [cbn; nia|]. replace ((s1 + 1) * m) with ((s1 + 1) * m + 0) by lia. rewrite number_data by (auto; lia). unfold fe, dm. lia. }
    destruct N as [N1 N2]. rewrite N2. split; [exact N1|]. split; [nia|]. split; [reflexivity|]. intros F0 t i Ht Hi. rewrite F0 in EB. cbn [Z.ltb Z.compare orb] in EB. apply Z.ltb_lt in EB. unfold fe. rewrite F0, Z.min_l by lia.
    destruct (Z.eq_dec t s1) as [->|NE].
    + unfold cl. rewrite Z.min_l by lia. assert ((s1 * m + i) * cs <= s1 * W + W - cs) by (clear -Hi Hcs; nia). split; [split; intros; [destruct R as [R|R]; lia|lia]|]. intros C1. assert (i = m - 1) by (clear - C1 EB R Hi Hcs; destruct R as [R|R]; nia). lia.
    + pose proof (CL t i Ht Hi ltac:(lia)). split; [|lia]. split; [intros; lia|intros _]. assert (t * k + k <= s1 * k) by (clear -Ht NE MP; nia). lia.
  - apply orb_false_iff in EB. destruct EB as [EB1 EB2]. apply Z.ltb_ge in EB1, EB2. assert (F0 : faulted = 0) by lia.
    unfold div_ceil. assert (Q : exists j, 0 < j <= m /\ (elba + cs - 1) / cs = s1 * m + j /\ s1 * W + j * cs - cs < elba <= s1 * W + j * cs /\ (j = m -> elba = (s1 + 1) * W)).
    { exists ((elba + cs - 1) / cs - s1 * m). pose proof (Z.div_mod (elba + cs - 1) cs ltac:(lia)) as DM. pose proof (Z.mod_pos_bound (elba + cs - 1) cs ltac:(lia)) as MB. set (q := (elba + cs - 1) / cs) in *.
      assert (A1 : (q - s1 * m) * cs < (m + 1) * cs) by (destruct R as [R|R]; nia). assert (A2 : 0 < (q - s1 * m) * cs) by (destruct R as [R|R]; nia). split; [split; [nia|]|]; [nia|]. split; [lia|]. split; [nia|]. intros E. destruct R as [R|R]; [lia|]. exfalso. assert (m * cs = q * cs - s1 * m * cs) by nia. nia. }
    destruct Q as (j & J1 & J2 & J3 & J4). rewrite J2. split; [cbn; nia|].
    assert (E : chunk_number L (Data (s1 * m + j)) = if j =? m then (s1 + 1) * k else s1 * k + j).
    { destruct (Z.eqb_spec j m) as [->|NE]; [replace (s1 * m + m) with ((s1 + 1) * m + 0) by ring|]; rewrite number_data by (auto; lia); lia. }
    rewrite E. split; [destruct (j =? m); lia|]. split; [lia|]. intros _ t i Ht Hi. destruct (Z.eq_dec t s1) as [->|NE].
    + unfold cl. rewrite Z.min_l by lia. destruct (Z.eqb_spec j m) as [->|NJ].
      * specialize (J4 eq_refl). assert ((s1 * m + i) * cs + cs <= (s1 + 1) * W) by (clear -Hi Hcs; nia). split; [split; intros; [lia|replace ((s1 + 1) * k) with (s1 * k + k) by ring; lia]|]. intros; lia.
      * split; [assert (i < j <-> (s1 * m + i) * cs < elba) by (clear -J3 Hi Hcs; split; intros; nia); lia|]. intros C1. assert (i + 1 = j) by (clear - C1 J3 Hi Hcs; nia). lia.
    + pose proof (CL t i Ht Hi ltac:(lia)). split; [|lia]. split; [intros; lia|intros _]. assert (t * k + k <= s1 * k) by (clear -Ht NE MP; nia). destruct (j =? m); [replace ((s1 + 1) * k) with (s1 * k + k) by ring|]; lia.
Qed.
Lemma a0_range : s0 * k <= a0 < s0 * k + m /\ 0 <= a0.
Proof. destruct sca_eq as (j & _ & J & E & _). pose proof s0_bounds as (K0 & _). rewrite E. nia. Qed.
Lemma a0_e0 : a0 < e0.
Proof. pose proof a0_range. pose proof (proj1 (proj2 ecid_spec)). clear -H H1 Hs MP. nia. Qed.
Lemma visited_t n : a0 <= n < e0 -> s0 <= tN n <= s1.
Proof.
  intros H. pose proof a0_range. pose proof (proj1 (proj2 ecid_spec)). destruct (nN n) as [E I]. clear -H H1 H2 E I MP. nia.
Qed.
Lemma chunks_eq : chunk_iter L (Data sca) ecid = map (locN L) (zrange a0 e0).
Proof. rewrite (chunk_iter_eq L HL); [reflexivity|apply sca_exists|apply ecid_spec|]. fold a0 e0. pose proof a0_e0. lia. Qed.
(** the parts of the chunks read in a healthy array *)
Lemma healthy_shape t i : faulted = 0 -> s0 <= t <= s1 -> 0 <= i < m -> 
  (a0 <= t * k + i < e0 -> lba < cl t i + cs /\ cl t i < elba) /\ (cl t i < lba < cl t i + cs -> t * k + i = a0) /\ (cl t i < elba < cl t i + cs -> t * k + i + 1 = e0) /\ (~ (a0 <= t * k + i < e0) -> ulen t i = 0).
Proof.
  intros F0 Ht Hi. destruct sca_eq as (j & _ & J & EA & _ & EJ). specialize (EJ F0). destruct ecid_spec as (_ & ER & _ & EE). destruct (EE F0 t i Ht Hi) as [E1 E2]. pose proof s0_bounds as (K0 & _). pose proof (mshape t i Ht Hi) as X. pose proof lba_elba as LE.
  assert (CE : cl t i = (t * m + i) * cs) by (unfold cl; rewrite Z.min_l by lia; reflexivity).
  assert (A : a0 <= t * k + i <-> lba < cl t i + cs).
  { rewrite EA, CE. destruct (Z.eq_dec t s0) as [->|NE].
    - assert (j <= i <-> lba < (s0 * m + i) * cs + cs) by (clear -EJ Hcs Hi J; split; intros; nia). lia.
    - assert (s0 + 1 <= t) by lia. assert (s0 * m + m <= t * m) by (clear -H MP; nia). assert (s0 * k + k <= t * k) by (clear -H MP; nia). split; intros _; [|lia]. clear -H1 EJ Hcs Hi J. nia. }
  split; [intros; split; [apply A|apply E1]; lia|]. split.
  - intros H. assert (Q1 : (s0 * m + j) < t * m + i + 1) by (rewrite CE in H; clear -EJ H Hcs; nia). assert (Q2 : t * m + i < s0 * m + j + 1) by (rewrite CE in H; clear -EJ H Hcs; nia).
    assert (t = s0) by (clear -Q1 Q2 Hi J MP; nia). subst t. lia.
  - split; [intros; symmetry; auto|]. intros N. assert (N' : cl t i + cs <= lba \/ elba <= cl t i) by lia. clear -N' X LE Hcs. lia.
Qed.

Definition init : mst := Mst (fun _ => []) (fun _ => []) (fun _ => None) D (fun _ => []) 1.
Notation step := (multi_step L cs B faulted (s1 - s0 + 1) sca lba elba).
Definition run (n : Z) : option mst := ofold step (map (locN L) (zrange a0 n)) init.
Definition gid (n : Z) : Z := match run n with Some st => m_next st | None => 1 end.
Lemma run_succ n st st' : a0 <= n -> run n = Some st -> step st (locN L n) = Some st' -> run (n + 1) = Some st'.
Proof. intros H R St. unfold run in *. rewrite (zrange_snoc a0 (n + 1)) by lia. replace (n + 1 - 1) with n by lia. rewrite map_app, ofold_app, R. cbn [obind map ofold]. rewrite St. reflexivity. Qed.
Definition eA (t i : Z) : slice := buffer (gid (t * k + i)) (pre t i * B).
Definition eB (t i : Z) : slice := buffer (gid (t * k + i) + (if 0 <? pre t i then 1 else 0)) (post t i * B).
Notation cellT t i := (cell L cs B (ul t) (ue t) (DT t) (eA t) (eB t) i).
Notation exsT t i := (exs L cs (ul t) (ue t) (eA t) (eB t) i).
Notation piecesT t i := (pieces L cs B (ul t) (ue t) (DT t) (eA t) (eB t) i).
Definition cnt (t i : Z) : Z := (if 0 <? pre t i then 1 else 0) + (if 0 <? post t i then 1 else 0).
Definition wanted (n : Z) : Prop := iN n < m + fe.
Definition cN (n : Z) : slice :=
  if iN n <? m + fe then if 0 <? faulted then cellT (tN n) (iN n) else duT (tN n) (iN n)
  else buffer (gid n) C.
(** effect of a round *)
Definition pushed (n : Z) (pcs exl : list slice) (c : Z) (st st' : mst) : Prop :=
  (forall x, m_sg st' x = if x =? pdN L n then m_sg st x ++ m_psg st x ++ pcs else m_sg st x) /\
  (forall x, m_psg st' x = if x =? pdN L n then [] else m_psg st x) /\
  (forall x, m_start st' x = if x =? pdN L n then match m_start st x with Some l => Some l | None => Some (poN L n * cs + (if 0 <? faulted then 0 else pre (tN n) (iN n))) end else m_start st x) /\
  m_buf st' = zdrop (gpN (n + 1) * B) D /\
  (forall x, m_ex st' x = if x =? tN n - s0 then m_ex st x ++ exl else m_ex st x) /\ m_next st' = m_next st + c.
Lemma locN_ti t i : 0 <= i < k -> locN L (t * k + i) = ((if i <? m then Data (t * m + i) else Parity (t * m) (i - m)), Loc (pdN L (t * k + i)) (poN L (t * k + i))).
Proof. intros H. unfold locN, pdN, poN. rewrite <- (pchunk_eq L t i H). unfold pchunk. now destruct (id2loc L (nth_chunk L (t * k + i))). Qed.
Lemma sized_t t : s0 <= t <= s1 -> sized L cs B (ul t) (ue t) (DT t) (eA t) (eB t).
Proof.
  intros Ht. destruct (ulue t Ht) as (U1 & U2 & U3 & U4). split.
  - unfold DT. rewrite zlen_sub; [reflexivity|nia|nia|]. rewrite zlen_buffer by nia. nia.
  - intros i Hi. destruct (upos_succ L cs Hcs (ul t) (ue t) i (in_stripe_t t Ht)) as (V1 & V2 & V3 & _). unfold eA, eB. rewrite !zlen_buffer by nia. auto.
Qed.
Lemma stripe_deg t i : 0 < faulted -> s0 <= t <= s1 -> 0 <= i < m -> Z.max 0 (t * m + i - sca) / m = t - s0.
Proof.
  intros Hd Ht Hi. destruct sca_eq as (j & E & _ & _ & J & _). rewrite E, (J Hd). rewrite Z.max_r by (clear -Ht Hi MP; nia). replace (t * m + i - (s0 * m + 0)) with (i + (t - s0) * m) by ring. rewrite Z.div_add, Z.div_small by lia. lia.
Qed.
Lemma stripe_any t : s0 <= t <= s1 -> Z.max 0 (t * m - sca) / m < s1 - s0 + 1.
Proof.
  intros Ht. destruct sca_eq as (j & E & J & _). rewrite E. apply Z.div_lt_upper_bound; [lia|]. assert (t * m <= s1 * m) by (clear -Ht MP; nia). assert (0 < (s1 - s0 + 1) * m) by (clear -Hs MP; nia). replace (m * (s1 - s0 + 1)) with (s1 * m - s0 * m + m) by ring. replace ((s1 - s0 + 1) * m) with (s1 * m - s0 * m + m) in * by ring. lia.
Qed.
Lemma zlen_D : zlen D = (elba - lba) * B.
Proof. pose proof lba_elba. apply zlen_buffer. nia. Qed.
Lemma zlen_rest n : zlen (zdrop (gpN n * B) D) = (elba - lba - gpN n) * B.
Proof. pose proof (gp_nonneg (tN n) (iN n)) as G. fold (gpN n) in G. rewrite zlen_drop by nia. rewrite zlen_D. clear -G HB. nia. Qed.
(** taking the caller's part of chunk [n] *)
Lemma take_du n : s0 <= tN n <= s1 -> split_to (ulen (tN n) (iN n) * B) (zdrop (gpN n * B) D) = Some (duT (tN n) (iN n), zdrop (gpN (n + 1) * B) D).
Proof.
  intros Ht. destruct (nN n) as [E Hi]. pose proof (gpN_succ n Ht) as G. pose proof (gp_nonneg (tN (n + 1)) (iN (n + 1))) as G1. fold (gpN (n + 1)) in G1. pose proof (gp_nonneg (tN n) (iN n)) as G2. fold (gpN n) in G2. destruct (upos_succ L cs Hcs (ul (tN n)) (ue (tN n)) (iN n) (in_stripe_t _ Ht)) as (V1 & _).
  rewrite split_to_ok by (rewrite zlen_rest; clear -G G1 V1 HB; nia). rewrite zdrop_zdrop by (clear -G2 V1 HB; nia). rewrite duT_eq by (auto; lia). unfold sub. do 2 f_equal; rewrite G; f_equal; ring.
Qed.
Lemma take_none n : s0 <= tN n <= s1 -> ulen (tN n) (iN n) = 0 -> zdrop (gpN (n + 1) * B) D = zdrop (gpN n * B) D.
Proof. intros Ht E. now rewrite (gpN_succ n Ht), E, Z.add_0_r. Qed.
Ltac pw := let x := fresh "x" in let Ex := fresh "Ex" in intros x; cbn [m_sg m_psg m_start m_buf m_ex m_next m_push]; unfold upd; rewrite ?Z.eqb_refl; lazymatch goal with |- context [x =? ?d] => destruct (Z.eqb_spec x d) as [Ex|Ex]; [rewrite ?Ex|] | _ => idtac end; rewrite <- ?app_assoc, ?app_nil_r, ?Z.add_0_r; cbn [app]; try reflexivity; try (match goal with |- context [m_start ?s ?y] => destruct (m_start s y) end; reflexivity).
Ltac pushed_tac := unfold pushed; split; [pw|split; [pw|split; [pw|split; [cbn [m_buf m_push]; try reflexivity|split; [pw|cbn [m_next m_push]; try lia]]]]].

Lemma step_deg n st : 0 < faulted -> a0 <= n < e0 -> iN n < m + fe -> m_buf st = zdrop (gpN n * B) D -> m_next st = gid n ->
  exists st', step st (locN L n) = Some st' /\ pushed n (piecesT (tN n) (iN n)) (exsT (tN n) (iN n)) (cnt (tN n) (iN n)) st st'.
Proof.
  intros Hd Hn Hw Hb Hg. pose proof (visited_t n Hn) as Ht. destruct (nN n) as [En Hi]. set (t := tN n) in *. set (i := iN n) in *. pose proof (locN_ti t i Hi) as EL. rewrite <- En in EL. rewrite EL. pose proof fe_range as FR. pose proof lba_elba as LE. pose proof (take_du n Ht) as TD. fold t i in TD. pose proof (zlen_rest n) as ZR. pose proof (take_none n Ht) as TN. fold t i in TN. rewrite <- Hb in TD, ZR, TN.
  assert (GN : gpN n = gp t i) by reflexivity. assert (P0 : forall y : Z, (if 0 <? faulted then 0 else y) = 0) by (intros y; rewrite (proj2 (Z.ltb_lt 0 faulted) Hd); reflexivity).
  assert (EAe : eA t i = buffer (m_next st) (pre t i * B)) by (unfold eA; rewrite <- En, Hg; reflexivity). assert (EBe : eB t i = buffer (m_next st + (if 0 <? pre t i then 1 else 0)) (post t i * B)) by (unfold eB; rewrite <- En, Hg; reflexivity).
  destruct (Z.ltb_spec i m) as [Hm|Hm].
  - unfold multi_step. cbn [fst snd address l_disk l_offset]. rewrite (stripe_deg t i Hd Ht ltac:(lia)). rewrite (proj2 (Z.ltb_lt 0 faulted) Hd). rewrite (proj2 (Z.eqb_neq faulted 0)) by lia. rewrite andb_true_r, andb_false_r.
    assert (CE : (t * m + i) * cs = cl t i) by (unfold cl; rewrite Z.min_l by lia; reflexivity). rewrite CE. assert (TS : (t - s0 <? s1 - s0 + 1) = true) by (apply Z.ltb_lt; lia).
    pose proof (mshape t i Ht ltac:(lia)) as X. unfold pieces, exs, cnt. unfold m_alloc, m_split. unfold oassert. rewrite TS.
    destruct X as [X|[X|[X|[X|X]]]].
    + destruct X as (X1 & X2 & X3 & X4 & X5). rewrite X2, X3, X4 in *. rewrite (proj2 (Z.leb_le _ _) X1). rewrite (proj2 (Z.ltb_lt 0 cs) Hcs) in *. cbn [Z.ltb Z.compare app obind fst snd]. rewrite EAe. eexists. split; [reflexivity|]. change (cs * B) with C. unfold pushed; fold t i; rewrite P0; pushed_tac. symmetry. apply TN. reflexivity.
    + destruct X as (X1 & X2 & X3 & X4 & X5 & X6). rewrite (proj2 (Z.leb_gt _ _)) by lia. rewrite (proj2 (Z.ltb_lt (cl t i) lba)) by lia.
      assert (MO : lba mod cs = pre t i). { rewrite X3. rewrite (Z.mod_eq lba cs) by lia. replace (lba / cs) with (t * m + i); [rewrite <- CE; ring|]. apply (Z.div_unique lba cs _ (lba - cl t i)); [left; lia|rewrite <- CE; ring]. }
      rewrite MO. assert (DS : Z.min ((cs - pre t i) * B) (zlen (m_buf st)) = ulen t i * B). { rewrite ZR. replace (cs - pre t i) with (ulen t i) by lia. apply Z.min_l. rewrite GN, X6. clear -X5 X2 HB. nia. }
      rewrite DS, TD. cbn [obind fst snd m_sg m_psg m_start m_ex m_next]. assert (XS : C - ulen t i * B = pre t i * B) by (unfold col_len; rewrite X3, X5; ring). rewrite XS. rewrite (proj2 (Z.ltb_lt 0 (pre t i))) in * by lia. rewrite (proj2 (Z.ltb_lt 0 (ulen t i))) in * by lia. rewrite X4 in *. cbn [Z.ltb Z.compare app obind fst snd]. rewrite EAe.
      eexists. split; [reflexivity|]. unfold pushed; fold t i; rewrite P0; pushed_tac.
    + destruct X as (X1 & X2 & X3 & X4 & X5 & X6). rewrite (proj2 (Z.leb_gt _ _)) by lia. rewrite (proj2 (Z.ltb_ge (cl t i) lba)) by lia. rewrite (proj2 (Z.leb_le _ _) X2). rewrite X5, X3, X4 in *. change (cs * B) with C in *. rewrite TD. rewrite (proj2 (Z.ltb_lt 0 cs) Hcs). cbn [Z.ltb Z.compare app obind fst snd].
      eexists. split; [reflexivity|]. unfold pushed; fold t i; rewrite P0; pushed_tac.
    + destruct X as (X1 & X2 & X3 & X4 & X5 & X6). rewrite (proj2 (Z.leb_gt _ _)) by lia. rewrite (proj2 (Z.ltb_ge (cl t i) lba)) by lia. rewrite (proj2 (Z.leb_gt (cl t i + cs) elba)) by lia. rewrite (proj2 (Z.ltb_lt (cl t i) elba)) by lia.
      assert (ZL : zlen (m_buf st) = ulen t i * B) by (rewrite ZR, GN, X6, X5; ring). rewrite ZL, TD. cbn [obind fst snd m_sg m_psg m_start m_ex m_next]. assert (XS : C - ulen t i * B = post t i * B) by (unfold col_len; rewrite X4, X5; ring). rewrite XS. rewrite X3 in *. rewrite (proj2 (Z.ltb_lt 0 (post t i))) by lia. rewrite (proj2 (Z.ltb_lt 0 (ulen t i))) by lia. cbn [Z.ltb Z.compare app obind fst snd] in *. rewrite EBe. rewrite Z.add_0_r.
      eexists. split; [reflexivity|]. unfold pushed; fold t i; rewrite P0; pushed_tac.
    + destruct X as (X1 & X2 & X3 & X4 & X5). rewrite (proj2 (Z.leb_gt _ _)) by lia. rewrite (proj2 (Z.ltb_ge (cl t i) lba)) by lia. rewrite (proj2 (Z.leb_gt (cl t i + cs) elba)) by lia. rewrite (proj2 (Z.ltb_ge (cl t i) elba)) by lia. rewrite X2, X3, X4 in *. rewrite (proj2 (Z.ltb_lt 0 cs) Hcs) in *. cbn [Z.ltb Z.compare app obind fst snd] in *. rewrite EBe. rewrite Z.add_0_r. eexists. split; [reflexivity|]. change (cs * B) with C. unfold pushed; fold t i; rewrite P0; pushed_tac. symmetry. apply TN. reflexivity.
  - unfold multi_step. cbn [fst snd address l_disk l_offset]. assert (PF : (i - m <? faulted) = true) by (apply Z.ltb_lt; unfold fe in *; lia). rewrite PF. pose proof (stripe_deg t 0 Hd Ht ltac:(lia)) as SD. rewrite Z.add_0_r in SD. rewrite SD. unfold m_alloc, oassert. rewrite (proj2 (Z.ltb_lt _ _)) by lia. cbn [obind fst snd].
    destruct (mshape_parity t i Ht ltac:(lia)) as (X2 & X3 & X4). unfold pieces, exs, cnt. rewrite X2, X3, X4 in *. rewrite (proj2 (Z.ltb_lt 0 cs) Hcs) in *. cbn [Z.ltb Z.compare app obind fst snd] in *. rewrite EBe, Z.add_0_r. change (cs * B) with C. eexists. split; [reflexivity|]. unfold pushed; fold t i; rewrite P0; pushed_tac. symmetry. apply TN. reflexivity.
Qed.
Lemma step_healthy n st : faulted = 0 -> a0 <= n < e0 -> iN n < m -> m_buf st = zdrop (gpN n * B) D ->
  exists st', step st (locN L n) = Some st' /\ pushed n [duT (tN n) (iN n)] [] 0 st st'.
Proof.
  intros F0 Hn Hm Hb. pose proof (visited_t n Hn) as Ht. destruct (nN n) as [En Hi]. set (t := tN n) in *. set (i := iN n) in *. pose proof (locN_ti t i Hi) as EL. rewrite <- En in EL. rewrite EL. pose proof (take_du n Ht) as TD. fold t i in TD. pose proof (zlen_rest n) as ZR. rewrite <- Hb in TD, ZR. assert (GN : gpN n = gp t i) by reflexivity.
  destruct (healthy_shape t i F0 Ht ltac:(lia)) as (HS1 & _). rewrite <- En in HS1. specialize (HS1 Hn). rewrite (proj2 (Z.ltb_lt i m) Hm).
  unfold multi_step. cbn [fst snd address l_disk l_offset]. rewrite F0. cbn [Z.ltb Z.compare Z.eqb]. rewrite andb_true_r, andb_false_r.
  assert (CE : (t * m + i) * cs = cl t i) by (unfold cl; rewrite Z.min_l by lia; reflexivity). rewrite CE. unfold m_split. rewrite (proj2 (Z.leb_gt (cl t i + cs) lba)) by lia.
  assert (P0 : (if 0 <? faulted then 0 else pre t i) = pre t i) by (rewrite F0; reflexivity).
  pose proof (mshape t i Ht ltac:(lia)) as X. destruct X as [X|[X|[X|[X|X]]]]; [exfalso; lia| | | |exfalso; lia].
  - destruct X as (X1 & X2 & X3 & X4 & X5 & X6). rewrite (proj2 (Z.ltb_lt (cl t i) lba)) by lia.
      assert (MO : lba mod cs = pre t i). { rewrite X3. rewrite (Z.mod_eq lba cs) by lia. replace (lba / cs) with (t * m + i); [rewrite <- CE; ring|]. apply (Z.div_unique lba cs _ (lba - cl t i)); [left; lia|rewrite <- CE; ring]. }
      rewrite MO. assert (DS : Z.min ((cs - pre t i) * B) (zlen (m_buf st)) = ulen t i * B). { rewrite ZR. replace (cs - pre t i) with (ulen t i) by lia. apply Z.min_l. rewrite GN, X6. clear -X5 X2 HB. nia. }
      rewrite DS, TD. cbn [obind fst snd]. eexists. split; [reflexivity|]. unfold pushed. fold t i. rewrite P0. pushed_tac.
  - destruct X as (X1 & X2 & X3 & X4 & X5 & X6). rewrite (proj2 (Z.ltb_ge (cl t i) lba)) by lia. rewrite (proj2 (Z.leb_le _ _) X2). replace C with (ulen t i * B) by (rewrite X5; reflexivity). rewrite TD. cbn [obind fst snd]. eexists. split; [reflexivity|]. unfold pushed. fold t i. rewrite P0, X3. pushed_tac.
  - destruct X as (X1 & X2 & X3 & X4 & X5 & X6). rewrite (proj2 (Z.ltb_ge (cl t i) lba)) by lia. rewrite (proj2 (Z.leb_gt (cl t i + cs) elba)) by lia. rewrite (proj2 (Z.ltb_lt (cl t i) elba)) by lia.
    assert (ZL : zlen (m_buf st) = ulen t i * B) by (rewrite ZR, GN, X6, X5; ring). rewrite ZL, TD. cbn [obind fst snd]. eexists. split; [reflexivity|]. unfold pushed. fold t i. rewrite P0, X3. pushed_tac.
Qed.
(** a parity chunk that is not wanted: held back, or skipped *)
Definition held (n : Z) (st st' : mst) : Prop :=
  (forall x, m_sg st' x = m_sg st x) /\ (forall x, m_psg st' x = if x =? pdN L n then m_psg st x ++ [buffer (m_next st) C] else m_psg st x) /\ (forall x, m_start st' x = m_start st x) /\
  m_buf st' = m_buf st /\ (0 < faulted -> forall x, m_ex st' x = if x =? tN n - s0 then m_ex st x ++ [buffer (m_next st) C] else m_ex st x) /\ m_next st' = m_next st + 1.
Lemma step_other n st : a0 <= n < e0 -> m + fe <= iN n -> exists st', step st (locN L n) = Some st' /\ ((m_sg st (pdN L n) = [] /\ st' = st) \/ (m_sg st (pdN L n) <> [] /\ held n st st')).
Proof.
  intros Hn Hw. pose proof (visited_t n Hn) as Ht. destruct (nN n) as [En Hi]. set (t := tN n) in *. set (i := iN n) in *. pose proof (locN_ti t i Hi) as EL. rewrite <- En in EL. rewrite EL. pose proof fe_range as FR. rewrite (proj2 (Z.ltb_ge i m)) by lia.
  unfold multi_step. cbn [fst snd address l_disk l_offset]. assert (PF : (i - m <? faulted) = false) by (apply Z.ltb_ge; unfold fe, dm in *; lia). rewrite PF. destruct (m_sg st (pdN L n)) as [|g gs] eqn:EG; cbn [is_nil negb].
  - eexists. split; [reflexivity|]. left. auto.
  - unfold m_alloc, oassert. rewrite (proj2 (Z.ltb_lt _ _) (stripe_any t Ht)). cbn [obind fst snd]. eexists. split; [reflexivity|]. right. split; [discriminate|]. unfold held. split; [pw|]. split; [pw|]. split; [pw|]. split; [reflexivity|]. split; [|reflexivity]. intros Hd.
    pose proof (stripe_deg t 0 Hd Ht ltac:(lia)) as SD. rewrite Z.add_0_r in SD. rewrite SD. fold t. pw.
Qed.

(** ** The state after chunks [a0, n) *)
Notation on d := (fun q => pdN L q =? d).
Definition pfx (n : Z) : Z := if 0 <? faulted then 0 else pre (tN n) (iN n).
Definition gids (n : Z) : Prop := forall p, a0 <= p < n -> gid p <= gid (p + 1) /\ (0 < faulted -> wanted p -> gid (p + 1) = gid p + cnt (tN p) (iN p)).
Definition disk_inv (n : Z) (st : mst) (d : Z) : Prop :=
  (m_start st d = None /\ m_sg st d = [] /\ m_psg st d = [] /\ forall p, a0 <= p < n -> wanted p -> pdN L p <> d) \/
  (exists q0 w, a0 <= q0 < w /\ w <= n /\ pdN L q0 = d /\ wanted q0 /\ m_start st d = Some (poN L q0 * cs + pfx q0) /\ m_sg st d <> [] /\
     concat (m_sg st d) = concat (map cN (filter (on d) (zrange q0 w))) /\ concat (m_psg st d) = concat (map cN (filter (on d) (zrange w n))) /\
     (forall p, a0 <= p < n -> pdN L p = d -> wanted p -> q0 <= p < w) /\
     (forall p, q0 <= p < n -> pdN L p = d -> ~ wanted p -> gid (p + 1) = gid p + 1)).
Definition ex_inv (n : Z) (st : mst) : Prop := 0 < faulted -> forall t, s0 <= t <= s1 ->
  exists rest, m_ex st (t - s0) = concat (map (fun i => exsT t i) (zrange 0 (Z.min (m + fe) (n - t * k)))) ++ rest /\ (n - t * k <= m + fe -> rest = []).
Definition INV (n : Z) (st : mst) : Prop :=
  run n = Some st /\ m_buf st = zdrop (gpN n * B) D /\ 1 <= m_next st /\ gids n /\ (forall d, disk_inv n st d) /\ ex_inv n st.
Lemma gid_run n st : run n = Some st -> gid n = m_next st.
Proof. intros H. unfold gid. now rewrite H. Qed.
Lemma a0_gp : gpN a0 = 0.
Proof.
  destruct sca_eq as (j & _ & J & E & E1 & E2). rewrite E, gpN_ti by lia. unfold gp, cl. rewrite (Z.min_l j) by lia. pose proof s0_bounds as (K0 & K1). pose proof lba_elba. assert ((s0 * m + j) * cs <= lba); [|lia].
  destruct (Z.eq_dec faulted 0) as [F|F]; [specialize (E2 F); lia|]. rewrite E1 by lia. replace ((s0 * m + 0) * cs) with (s0 * W) by ring. lia.
Qed.
Lemma exs_deg_start : forall t, 0 < faulted -> s0 <= t <= s1 -> a0 - t * k <= 0.
Proof. intros t Hd Ht. destruct sca_eq as (j & _ & J & E & E1 & _). rewrite E, E1 by assumption. clear -Ht MP. nia. Qed.
Lemma INV_0 : INV a0 init.
Proof.
  split; [unfold run; rewrite zrange_empty by lia; reflexivity|]. split; [cbn [m_buf init]; rewrite a0_gp, zdrop_0 by lia; reflexivity|]. split; [cbn; lia|]. split; [intros p Hp; lia|]. split.
  - intros d. left. cbn. repeat split. intros; lia.
  - intros Hd t Ht. exists []. pose proof (exs_deg_start t Hd Ht). pose proof fe_range. split; [|auto]. rewrite zrange_empty by lia. reflexivity.
Qed.
Lemma on_snoc d lo n : lo <= n -> concat (map cN (filter (on d) (zrange lo (n + 1)))) = concat (map cN (filter (on d) (zrange lo n))) ++ (if pdN L n =? d then cN n else []).
Proof. intros H. rewrite (zrange_snoc lo (n + 1)) by lia. replace (n + 1 - 1) with n by lia. rewrite filter_app, map_app, concat_app. cbn [filter]. destruct (pdN L n =? d); cbn [map concat]; now rewrite ?app_nil_r. Qed.
Lemma on_split d lo mid hi : lo <= mid <= hi -> concat (map cN (filter (on d) (zrange lo hi))) = concat (map cN (filter (on d) (zrange lo mid))) ++ concat (map cN (filter (on d) (zrange mid hi))).
Proof. intros H. rewrite (zrange_split lo mid hi) by lia. now rewrite filter_app, map_app, concat_app. Qed.
Lemma cnt_range t i : 0 <= cnt t i.
Proof. unfold cnt. destruct (0 <? pre t i), (0 <? post t i); lia. Qed.
Lemma concat_pieces t i : s0 <= t <= s1 -> 0 <= i -> concat (piecesT t i) = cellT t i.
Proof.
  intros Ht Hi. pose proof (sized_t t Ht) as S. pose proof (zlen_du L cs B HB Hcs Hf H256 (ul t) (ue t) (DT t) (eA t) (eB t) i S (in_stripe_t t Ht)) as ZD. destruct S as [_ S]. destruct (S i Hi) as [SA SB]. destruct (upos_succ L cs Hcs (ul t) (ue t) i (in_stripe_t t Ht)) as (V1 & V2 & V3 & _).
  assert (N : forall (l : slice) x, zlen l = x * B -> 0 <= x -> concat (if 0 <? x then [l] else []) = l).
  { intros l x E Hx. destruct (Z.ltb_spec 0 x); [cbn; apply app_nil_r|]. assert (x = 0) by lia. subst x. destruct l; [reflexivity|]. rewrite zlen_cons in E. pose proof (zlen_nonneg l). lia. }
  unfold pieces, cell. rewrite !concat_app. rewrite !N by (auto; lia). reflexivity.
Qed.
(** what a pushing round does to the disks *)
Lemma disks_push n pcs exl c st st' : a0 <= n -> run n = Some st -> run (n + 1) = Some st' -> wanted n -> concat pcs = cN n -> pcs <> [] -> pushed n pcs exl c st st' -> (forall d, disk_inv n st d) -> forall d, disk_inv (n + 1) st' d.
Proof.
  intros Hn R R' Hw Hc Hp (P1 & P2 & P3 & _) I d. unfold disk_inv. rewrite P1, P2, P3. destruct (Z.eqb_spec d (pdN L n)) as [->|NE].
  - right. destruct (I (pdN L n)) as [(I1 & I2 & I3 & I4)|(q0 & w & I1 & I2 & I3 & I4 & I5 & I6 & I7 & I8 & I9 & I10)].
    + exists n, (n + 1). rewrite I1, I2, I3. cbn [app]. split; [lia|]. split; [lia|]. split; [reflexivity|]. split; [exact Hw|]. split; [reflexivity|]. split; [exact Hp|]. split; [|split; [|split]].
      * rewrite on_snoc by lia. rewrite zrange_empty by lia. rewrite Z.eqb_refl. exact Hc.
      * rewrite zrange_empty by lia. reflexivity.
      * intros p H1 H2 H3. destruct (Z.eq_dec p n); [lia|]. exfalso. apply (I4 p); auto; lia.
      * intros p H1 _ H3. assert (p = n) by lia. subst p. contradiction.
    + exists q0, (n + 1). rewrite I5. split; [lia|]. split; [lia|]. split; [exact I3|]. split; [exact I4|]. split; [reflexivity|]. split; [destruct (m_sg st (pdN L n)); [contradiction|discriminate]|]. split; [|split; [|split]].
      * rewrite !concat_app, I7, I8, Hc. rewrite on_snoc by lia. rewrite Z.eqb_refl. rewrite (on_split _ q0 w n) by lia. now rewrite <- app_assoc.
      * rewrite zrange_empty by lia. reflexivity.
      * intros p H1 H2 H3. destruct (Z.eq_dec p n); [lia|]. pose proof (I9 p ltac:(lia) H2 H3). lia.
      * intros p H1 H2 H3. destruct (Z.eq_dec p n) as [->|]; [contradiction|]. apply I10; auto; lia.
  - destruct (I d) as [(I1 & I2 & I3 & I4)|(q0 & w & I1 & I2 & I3 & I4 & I5 & I6 & I7 & I8 & I9 & I10)].
    + left. split; [exact I1|]. split; [exact I2|]. split; [exact I3|]. intros p H1 H2. destruct (Z.eq_dec p n) as [->|]; [congruence|]. apply I4; auto; lia.
    + right. exists q0, w. split; [lia|]. split; [lia|]. split; [exact I3|]. split; [exact I4|]. split; [exact I5|]. split; [exact I6|]. split; [exact I7|]. split; [|split].
      * rewrite on_snoc by lia. rewrite (proj2 (Z.eqb_neq _ _)) by congruence. rewrite app_nil_r. exact I8.
      * intros p H1 H2 H3. destruct (Z.eq_dec p n) as [->|]; [congruence|]. apply I9; auto; lia.
      * intros p H1 H2 H3. destruct (Z.eq_dec p n) as [->|]; [congruence|]. apply I10; auto; lia.
Qed.
Lemma cN_other n : ~ wanted n -> cN n = buffer (gid n) C.
Proof. unfold wanted, cN. intros H. rewrite (proj2 (Z.ltb_ge _ _)) by lia. reflexivity. Qed.
Lemma disks_hold n st st' : a0 <= n -> run n = Some st -> run (n + 1) = Some st' -> ~ wanted n -> m_sg st (pdN L n) <> [] -> held n st st' -> (forall d, disk_inv n st d) -> forall d, disk_inv (n + 1) st' d.
Proof.
  intros Hn R R' Hw Hp (P1 & P2 & P3 & _ & _ & P6) I d. unfold disk_inv. rewrite P1, P2, P3. pose proof (gid_run _ _ R) as G. pose proof (gid_run _ _ R') as G'. destruct (I d) as [(I1 & I2 & I3 & I4)|(q0 & w & I1 & I2 & I3 & I4 & I5 & I6 & I7 & I8 & I9 & I10)].
  - left. destruct (Z.eqb_spec d (pdN L n)) as [->|NE]; [contradiction|]. split; [exact I1|]. split; [exact I2|]. split; [exact I3|]. intros p H1 H2. destruct (Z.eq_dec p n) as [->|]; [contradiction|]. apply I4; auto; lia.
  - right. exists q0, w. split; [lia|]. split; [lia|]. split; [exact I3|]. split; [exact I4|]. split; [exact I5|]. split; [exact I6|]. split; [exact I7|]. split; [|split].
    + rewrite on_snoc by lia. rewrite (Z.eqb_sym (pdN L n) d). destruct (Z.eqb_spec d (pdN L n)) as [->|NE]; [|rewrite app_nil_r; exact I8]. rewrite concat_app, I8. rewrite cN_other by assumption. cbn [concat]. rewrite app_nil_r, G. reflexivity.
    + intros p H1 H2 H3. destruct (Z.eq_dec p n) as [->|]; [contradiction|]. apply I9; auto; lia.
    + intros p H1 H2 H3. destruct (Z.eq_dec p n) as [->|]; [lia|]. apply I10; auto; lia.
Qed.
Lemma disks_skip n st : a0 <= n -> ~ wanted n -> m_sg st (pdN L n) = [] -> (forall d, disk_inv n st d) -> forall d, disk_inv (n + 1) st d.
Proof.
  intros Hn Hw Hp I d. destruct (I d) as [(I1 & I2 & I3 & I4)|(q0 & w & I1 & I2 & I3 & I4 & I5 & I6 & I7 & I8 & I9 & I10)].
  - left. split; [exact I1|]. split; [exact I2|]. split; [exact I3|]. intros p H1 H2. destruct (Z.eq_dec p n) as [->|]; [contradiction|]. apply I4; auto; lia.
  - assert (NE : pdN L n <> d) by (intros E; rewrite E in Hp; contradiction). right. exists q0, w. split; [lia|]. split; [lia|]. split; [exact I3|]. split; [exact I4|]. split; [exact I5|]. split; [exact I6|]. split; [exact I7|]. split; [|split].
    + rewrite on_snoc by lia. rewrite (proj2 (Z.eqb_neq _ _)) by congruence. rewrite app_nil_r. exact I8.
    + intros p H1 H2 H3. destruct (Z.eq_dec p n) as [->|]; [contradiction|]. apply I9; auto; lia.
    + intros p H1 H2 H3. destruct (Z.eq_dec p n) as [->|]; [congruence|]. apply I10; auto; lia.
Qed.
Lemma gids_succ n : gids n -> gid n <= gid (n + 1) -> (0 < faulted -> wanted n -> gid (n + 1) = gid n + cnt (tN n) (iN n)) -> gids (n + 1).
Proof. intros G G1 G2 p Hp. destruct (Z.eq_dec p n) as [->|]; [auto|]. apply G. lia. Qed.
(** the extra buffers *)
Lemma ex_push n exl c st st' pcs : a0 <= n < e0 -> wanted n -> (0 < faulted -> exl = exsT (tN n) (iN n)) -> pushed n pcs exl c st st' -> ex_inv n st -> ex_inv (n + 1) st'.
Proof.
  intros Hn Hw HE (_ & _ & _ & _ & P5 & _) I Hd t Ht. destruct (I Hd t Ht) as (rest & E & R). rewrite P5. destruct (nN n) as [En Hi]. pose proof (visited_t n Hn) as Htn. unfold wanted in Hw. rewrite (HE Hd). destruct (Z.eqb_spec (t - s0) (tN n - s0)) as [ET|NE].
  - assert (t = tN n) by lia. subst t. exists []. rewrite app_nil_r. split; [|auto]. assert (EI : n - tN n * k = iN n) by lia. rewrite EI in *. rewrite E, R by lia. rewrite app_nil_r. replace (Z.min (m + fe) (n + 1 - tN n * k)) with (iN n + 1) by lia. replace (Z.min (m + fe) (iN n)) with (iN n) by lia.
    rewrite (zrange_snoc 0 (iN n + 1)) by lia. replace (iN n + 1 - 1) with (iN n) by lia. rewrite map_app, concat_app. cbn [map concat]. now rewrite app_nil_r.
  - exists rest. assert (NT : t <> tN n) by lia. rewrite E. assert (TT : t < tN n \/ tN n < t) by lia. assert (MF := fe_range). destruct TT as [TT|TT].
    + assert (t * k + k <= tN n * k) by (clear -TT MP; nia). rewrite !Z.min_l by lia. split; [reflexivity|]. intros. apply R. lia.
    + assert (tN n * k + k <= t * k) by (clear -TT MP; nia). rewrite !zrange_empty by lia. split; [reflexivity|]. intros. apply R. lia.
Qed.
Lemma ex_hold n st st' : a0 <= n < e0 -> ~ wanted n -> held n st st' -> ex_inv n st -> ex_inv (n + 1) st'.
Proof.
  intros Hn Hw (_ & _ & _ & _ & P5 & _) I Hd t Ht. destruct (I Hd t Ht) as (rest & E & R). rewrite (P5 Hd). destruct (nN n) as [En Hi]. pose proof (visited_t n Hn) as Htn. unfold wanted in Hw. assert (MF := fe_range). destruct (Z.eqb_spec (t - s0) (tN n - s0)) as [ET|NE].
  - assert (t = tN n) by lia. subst t. exists (rest ++ [buffer (m_next st) C]). split; [|lia]. rewrite E, <- app_assoc. rewrite !Z.min_l by lia. reflexivity.
  - exists rest. assert (NT : t <> tN n) by lia. rewrite E. assert (TT : t < tN n \/ tN n < t) by lia. destruct TT as [TT|TT].
    + assert (t * k + k <= tN n * k) by (clear -TT MP; nia). rewrite !Z.min_l by lia. split; [reflexivity|]. intros. apply R. lia.
    + assert (tN n * k + k <= t * k) by (clear -TT MP; nia). rewrite !zrange_empty by lia. split; [reflexivity|]. intros. apply R. lia.
Qed.
Lemma ex_skip n st : a0 <= n < e0 -> ~ wanted n -> ex_inv n st -> ex_inv (n + 1) st.
Proof.
  intros Hn Hw I Hd t Ht. destruct (I Hd t Ht) as (rest & E & R). destruct (nN n) as [En Hi]. unfold wanted in Hw. assert (MF := fe_range). exists rest. rewrite E. destruct (Z.eq_dec t (tN n)) as [->|NT]; [split; [rewrite !Z.min_l by lia; reflexivity|lia]|].
  assert (TT : t < tN n \/ tN n < t) by lia. destruct TT as [TT|TT].
  + assert (t * k + k <= tN n * k) by (clear -TT MP; nia). rewrite !Z.min_l by lia. split; [reflexivity|]. intros. apply R. lia.
  + assert (tN n * k + k <= t * k) by (clear -TT MP; nia). rewrite !zrange_empty by lia. split; [reflexivity|]. intros. apply R. lia.
Qed.
Lemma step_ok n st : a0 <= n < e0 -> INV n st -> exists st', step st (locN L n) = Some st' /\ INV (n + 1) st'.
Proof.
  intros Hn (R & Hb & H1 & G & ID & IE). pose proof (gid_run _ _ R) as GR. pose proof (visited_t n Hn) as Ht. destruct (nN n) as [En Hi]. pose proof fe_range as MF. destruct (Z_lt_ge_dec (iN n) (m + fe)) as [Hw|Hw].
  - assert (X : exists pcs exl c st', step st (locN L n) = Some st' /\ pushed n pcs exl c st st' /\ concat pcs = cN n /\ pcs <> [] /\ (0 < faulted -> exl = exsT (tN n) (iN n) /\ c = cnt (tN n) (iN n)) /\ 0 <= c).
    { destruct (Z.eq_dec faulted 0) as [F0|F0].
      - destruct (step_healthy n st F0 Hn) as (st' & E & P); [unfold fe in *; lia|exact Hb|]. exists [duT (tN n) (iN n)], [], 0, st'. split; [exact E|]. split; [exact P|]. split; [|split; [discriminate|split; [lia|lia]]].
        unfold cN. rewrite (proj2 (Z.ltb_lt _ _) Hw), F0. cbn. apply app_nil_r.
      - destruct (step_deg n st ltac:(lia) Hn Hw Hb ltac:(congruence)) as (st' & E & P). exists (piecesT (tN n) (iN n)), (exsT (tN n) (iN n)), (cnt (tN n) (iN n)), st'. split; [exact E|]. split; [exact P|]. split; [|split; [|split; [auto|apply cnt_range]]].
        + rewrite concat_pieces by (auto; lia). unfold cN. rewrite (proj2 (Z.ltb_lt _ _) Hw). rewrite (proj2 (Z.ltb_lt 0 faulted)) by lia. reflexivity.
        + unfold pieces. destruct (upos_succ L cs Hcs (ul (tN n)) (ue (tN n)) (iN n) (in_stripe_t _ Ht)) as (V1 & V2 & V3 & _). unfold Raid_Recon.ulen in *. destruct (Z.ltb_spec 0 (pre (tN n) (iN n))); [discriminate|]. destruct (Z.ltb_spec 0 (cs - pre (tN n) (iN n) - post (tN n) (iN n))); [discriminate|]. rewrite (proj2 (Z.ltb_lt 0 _)) by lia. discriminate. }
    destruct X as (pcs & exl & c & st' & E & P & Hc & Hp & HE & C0). pose proof (run_succ n st st' ltac:(lia) R E) as R'. pose proof (gid_run _ _ R') as GR'. exists st'. split; [exact E|]. pose proof P as (_ & _ & _ & P4 & _ & P6).
    split; [exact R'|]. split; [exact P4|]. split; [lia|]. split; [|split].
    + apply gids_succ; [exact G|lia|]. intros Hd _. destruct (HE Hd). lia.
    + apply (disks_push n pcs exl c st st'); auto; lia.
    + apply (ex_push n exl c st st' pcs); auto. intros Hd. now apply HE.
  - assert (NW : ~ wanted n) by (unfold wanted; lia). destruct (step_other n st Hn ltac:(lia)) as (st' & E & X). pose proof (run_succ n st st' ltac:(lia) R E) as R'. pose proof (gid_run _ _ R') as GR'. exists st'. split; [exact E|].
    assert (BU : zdrop (gpN (n + 1) * B) D = zdrop (gpN n * B) D) by (apply take_none; auto; apply mshape_parity; auto; lia). destruct X as [[X1 ->]|[X1 X2]].
    + split; [exact R'|]. split; [now rewrite BU|]. split; [lia|]. split; [|split].
      * apply gids_succ; [exact G|lia|]. intros _ W'. contradiction.
      * apply disks_skip; auto; lia.
      * apply ex_skip; auto.
    + pose proof X2 as (_ & _ & _ & P4 & _ & P6). split; [exact R'|]. split; [now rewrite BU, P4|]. split; [lia|]. split; [|split].
      * apply gids_succ; [exact G|lia|]. intros _ W'. contradiction.
      * apply (disks_hold n st st'); auto; lia.
      * apply (ex_hold n st st'); auto.
Qed.
Lemma loop_ok : exists st, ofold step (chunk_iter L (Data sca) ecid) init = Some st /\ INV e0 st.
Proof. rewrite chunks_eq. pose proof a0_e0. apply (ofold_inv step (locN L) INV a0 e0 init); [lia|apply INV_0|]. intros i s Hi. apply step_ok. exact Hi. Qed.

(** ** Every cell belongs to one chunk *)
Definition own (p : Z) (a : addr) : Prop := (fst a = 0 /\ gpN p * B <= snd a < gpN (p + 1) * B) \/ (1 <= fst a /\ gid p <= fst a < gid (p + 1)).
Section Final.
Context (st : mst) (INVe : INV e0 st).
Lemma gidsE : gids e0.
Proof. apply INVe. Qed.
Lemma gid_mono p q : a0 <= p <= q -> q <= e0 -> gid p <= gid q.
Proof.
  intros H. replace q with (p + Z.of_nat (Z.to_nat (q - p))) by lia. generalize (Z.to_nat (q - p)) as n. induction n as [|n IH]; intros Hq; [replace (p + Z.of_nat 0) with p by lia; lia|].
  replace (p + Z.of_nat (Datatypes.S n)) with (p + Z.of_nat n + 1) in * by lia. pose proof (proj1 (gidsE (p + Z.of_nat n) ltac:(lia))). specialize (IH ltac:(lia)). lia.
Qed.
Lemma gid_pos p : a0 <= p <= e0 -> 1 <= gid p.
Proof. intros H. pose proof (gid_mono a0 p ltac:(lia) ltac:(lia)) as X. assert (gid a0 = 1) by (unfold gid, run; rewrite zrange_empty by lia; reflexivity). lia. Qed.
Lemma own_disjoint p q a : a0 <= p < e0 -> a0 <= q < e0 -> own p a -> own q a -> p = q.
Proof.
  assert (X : forall p q, a0 <= p < e0 -> a0 <= q < e0 -> own p a -> own q a -> ~ p < q).
  { intros x y Hx Hy Ox Oy Hlt. pose proof (gid_mono (x + 1) y ltac:(lia) ltac:(lia)). pose proof (gpN_mono (x + 1) y ltac:(lia)). unfold own in *. clear - Ox Oy H H1 HB. nia. }
  intros Hp Hq Op Oq. pose proof (X p q Hp Hq Op Oq). pose proof (X q p Hq Hp Oq Op). lia.
Qed.
Definition read_chunk (p : Z) : Prop := wanted p \/ gid (p + 1) = gid p + 1.
Lemma in_du p a : a0 <= p < e0 -> In a (duT (tN p) (iN p)) -> own p a.
Proof. intros Hp H. destruct (nN p) as [E Hi]. apply duN_in in H; [|now apply visited_t|exact Hi]. rewrite <- E in H. now left. Qed.
Lemma in_cell p a : 0 < faulted -> a0 <= p < e0 -> wanted p -> In a (cellT (tN p) (iN p)) -> own p a.
Proof.
  intros Hd Hp Hw H. unfold cell in H. rewrite !in_app_iff in H. destruct (nN p) as [E Hi]. pose proof (proj2 (gidsE p Hp) Hd Hw) as G. pose proof (gid_pos p ltac:(lia)) as GP. unfold cnt in G. unfold eA, eB in H. rewrite <- E in H. destruct H as [H|[H|H]].
  - right. apply in_buffer in H. destruct H as [H1 H2]. destruct (Z.ltb_spec 0 (pre (tN p) (iN p))); [|clear -H2 HB H; nia]. destruct (0 <? post (tN p) (iN p)); lia.
  - now apply in_du.
  - right. apply in_buffer in H. destruct H as [H1 H2]. destruct (Z.ltb_spec 0 (post (tN p) (iN p))); [|clear -H2 HB H; nia]. destruct (0 <? pre (tN p) (iN p)); lia.
Qed.
Lemma in_cN p a : a0 <= p < e0 -> read_chunk p -> In a (cN p) -> own p a.
Proof.
  intros Hp Hr H. unfold cN in H. destruct (Z.ltb_spec (iN p) (m + fe)) as [Hw|Hw].
  - destruct (Z.ltb_spec 0 faulted); [now apply in_cell|now apply in_du].
  - destruct Hr as [Hr|Hr]; [unfold wanted in Hr; lia|]. apply in_buffer in H. right. pose proof (gid_pos p ltac:(lia)). lia.
Qed.
Lemma NoDup_cell p : 0 < faulted -> a0 <= p < e0 -> NoDup (cellT (tN p) (iN p)).
Proof.
  intros Hd Hp. destruct (nN p) as [E Hi]. pose proof (visited_t p Hp) as Ht. pose proof (gid_pos p ltac:(lia)) as GP. unfold cell, eA, eB. rewrite <- E. apply NoDup_app_iff. split; [apply NoDup_buffer|]. split.
  - apply NoDup_app_iff. split; [now apply NoDup_duT|]. split; [apply NoDup_buffer|]. intros x H1 H2. apply in_buffer in H2. apply duN_in in H1; [|exact Ht|exact Hi]. destruct (0 <? pre (tN p) (iN p)); lia.
  - intros x H1 H2. apply in_buffer in H1. apply in_app_iff in H2. destruct H2 as [H2|H2].
    + apply duN_in in H2; [|exact Ht|exact Hi]. lia.
    + apply in_buffer in H2. destruct (Z.ltb_spec 0 (pre (tN p) (iN p))); [lia|]. clear -H1 H HB. nia.
Qed.
Lemma NoDup_cN p : a0 <= p < e0 -> NoDup (cN p).
Proof.
  intros Hp. unfold cN. destruct (iN p <? m + fe); [|apply NoDup_buffer]. destruct (Z.ltb_spec 0 faulted); [now apply NoDup_cell|]. apply NoDup_duT; [now apply visited_t|apply nN].
Qed.
Lemma pfx_0 p : a0 < p < e0 -> pfx p = 0.
Proof.
  intros Hp. unfold pfx. destruct (Z.ltb_spec 0 faulted) as [|F]; [reflexivity|]. destruct (nN p) as [E Hi]. pose proof (visited_t p ltac:(lia)) as Ht. destruct (Z_lt_ge_dec (iN p) m) as [Hm|Hm]; [|apply mshape_parity; auto; lia].
  destruct (healthy_shape (tN p) (iN p) ltac:(lia) Ht ltac:(lia)) as (S1 & S2 & _). rewrite <- E in *. specialize (S1 ltac:(lia)). pose proof (mshape (tN p) (iN p) Ht ltac:(lia)) as X. clear - X S1 S2 Hp. lia.
Qed.
Lemma C_pos : 0 < C.
Proof. unfold col_len. nia. Qed.
Lemma pfx_range p : a0 <= p < e0 -> 0 <= pfx p /\ 0 <= zlen (cN p) /\ pfx p * B + zlen (cN p) <= C /\ (p + 1 < e0 -> pfx p * B + zlen (cN p) = C).
Proof.
  intros Hp. destruct (nN p) as [E Hi]. pose proof (visited_t p ltac:(lia)) as Ht. pose proof C_pos as CP. unfold pfx, cN. destruct (upos_succ L cs Hcs (ul (tN p)) (ue (tN p)) (iN p) (in_stripe_t _ Ht)) as (V1 & V2 & V3 & _). destruct (Z.ltb_spec (iN p) (m + fe)) as [Hw|Hw].
  - destruct (Z.ltb_spec 0 faulted) as [Hd|Hd].
    + rewrite (zlen_cell L cs B HB Hcs Hf H256 (ul (tN p)) (ue (tN p)) (DT (tN p)) (eA (tN p)) (eB (tN p)) (iN p) (sized_t _ Ht) (in_stripe_t _ Ht)) by lia. lia.
    + rewrite (zlen_du L cs B HB Hcs Hf H256 (ul (tN p)) (ue (tN p)) (DT (tN p)) (eA (tN p)) (eB (tN p)) (iN p) (sized_t _ Ht) (in_stripe_t _ Ht)). assert (F0 : faulted = 0) by lia. unfold fe in Hw. rewrite F0, Z.min_l in Hw by lia. destruct (healthy_shape (tN p) (iN p) F0 Ht ltac:(lia)) as (S1 & S2 & S3 & _). rewrite <- E in *. specialize (S1 Hp). pose proof (mshape (tN p) (iN p) Ht ltac:(lia)) as X.
      unfold col_len. split; [lia|]. split; [clear -V1 HB; nia|]. split; [clear - V1 V2 V3 HB; unfold Raid_Recon.ulen in *; nia|]. intros HE. assert (post (tN p) (iN p) = 0) by (clear - X S1 S3 HE Hcs; lia). unfold Raid_Recon.ulen. rewrite H. ring.
  - rewrite zlen_buffer by lia. assert (X : pre (tN p) (iN p) = 0) by (apply mshape_parity; auto; pose proof fe_range; lia). rewrite X. destruct (0 <? faulted); lia.
Qed.

(** ** The disks' answers *)
Definition okd (d : Z) : bool := match m_start st d with Some l => ok d l | None => true end.
Definition rd (n : Z) (mm : mem) : mem * list bool :=
  fold_left (fun md d => match m_start st d with
                         | None => (fst md, snd md ++ [true])
                         | Some lba => let mr := child_readv B dk ok junk (fst md) (m_sg st d) d lba in (fst mr, snd md ++ [snd mr]) end)
            (zrange 0 n) (mm, []).
Lemma rd_succ n mm : 0 <= n -> rd (n + 1) mm = (match m_start st n with None => fst (rd n mm) | Some l => fst (child_readv B dk ok junk (fst (rd n mm)) (m_sg st n) n l) end, snd (rd n mm) ++ [okd n]).
Proof.
  intros H. unfold rd. rewrite (zrange_snoc 0 (n + 1)) by lia. replace (n + 1 - 1) with n by lia. rewrite fold_left_app. cbn [fold_left]. unfold okd. destruct (m_start st n) as [l|]; cbv zeta; [|reflexivity]. f_equal. rewrite child_readv_res. reflexivity.
Qed.
Lemma rd_res n mm : 0 <= n -> snd (rd n mm) = map okd (zrange 0 n).
Proof.
  intros H. replace n with (Z.of_nat (Z.to_nat n)) by lia. generalize (Z.to_nat n) as q. induction q as [|q IH]; [reflexivity|]. replace (Z.of_nat (Datatypes.S q)) with (Z.of_nat q + 1) by lia. rewrite rd_succ by lia. cbn [snd]. rewrite IH. rewrite (zrange_snoc 0 (Z.of_nat q + 1)) by lia. replace (Z.of_nat q + 1 - 1) with (Z.of_nat q) by lia. rewrite map_app. reflexivity.
Qed.
(** the chunks read from a disk *)
Lemma disk_spec d : (m_start st d = None /\ forall p, a0 <= p < e0 -> wanted p -> pdN L p <> d) \/
  (exists q0 w, a0 <= q0 < w /\ w <= e0 /\ pdN L q0 = d /\ m_start st d = Some (poN L q0 * cs + pfx q0) /\ concat (m_sg st d) = concat (map cN (filter (on d) (zrange q0 w))) /\
     (forall p, a0 <= p < e0 -> pdN L p = d -> wanted p -> q0 <= p < w) /\ (forall p, q0 <= p < e0 -> pdN L p = d -> read_chunk p)).
Proof.
  destruct INVe as (_ & _ & _ & _ & ID & _). destruct (ID d) as [(I1 & I2 & I3 & I4)|(q0 & w & I1 & I2 & I3 & I4 & I5 & I6 & I7 & I8 & I9 & I10)]; [left; auto|right].
  exists q0, w. split; [lia|]. split; [lia|]. split; [exact I3|]. split; [exact I5|]. split; [exact I7|]. split; [exact I9|]. intros p Hp Hd. unfold read_chunk, wanted in *. destruct (Z_lt_ge_dec (iN p) (m + fe)); [now left|right]. apply I10; auto.
Qed.
Lemma sg_own d a : m_start st d <> None -> In a (concat (m_sg st d)) -> exists p, a0 <= p < e0 /\ pdN L p = d /\ own p a.
Proof.
  intros Hd H. destruct (disk_spec d) as [(E & _)|(q0 & w & I1 & I2 & I3 & I4 & I5 & I6 & I7)]; [contradiction|]. rewrite I5 in H. apply in_concat in H. destruct H as (l & Hl & Ha). apply in_map_iff in Hl. destruct Hl as (p & <- & Hp). apply filter_In in Hp. destruct Hp as [Hp Hpd]. apply in_zrange in Hp. apply Z.eqb_eq in Hpd. exists p. split; [lia|]. split; [exact Hpd|]. apply in_cN; auto; [lia|]. apply I7; auto. lia.
Qed.
Lemma NoDup_concat_map {A X} (g : X -> list A) l : NoDup l -> (forall x, In x l -> NoDup (g x)) -> (forall x y a, In x l -> In y l -> In a (g x) -> In a (g y) -> x = y) -> NoDup (concat (map g l)).
Proof.
  induction l as [|x l IH]; intros N H1 H2; cbn [map concat]; [constructor|]. inversion N; subst. apply NoDup_app_iff. split; [apply H1; now left|]. split.
  - apply IH; [assumption| |]; intros; [apply H1|eapply H2]; eauto; now right.
  - intros a Ha Hb. apply in_concat in Hb. destruct Hb as (sl & Hsl & Ha'). apply in_map_iff in Hsl. destruct Hsl as (y & <- & Hy). assert (x = y) by (eapply H2; eauto; [now left|now right]). subst y. contradiction.
Qed.
Lemma sg_NoDup d : m_start st d <> None -> NoDup (concat (m_sg st d)).
Proof.
  intros Hd. destruct (disk_spec d) as [(E & _)|(q0 & w & I1 & I2 & I3 & I4 & I5 & I6 & I7)]; [contradiction|]. rewrite I5. assert (IN : forall p, In p (filter (on d) (zrange q0 w)) -> q0 <= p < w /\ pdN L p = d) by (intros p Hp; apply filter_In in Hp; destruct Hp as [Hp Hpd]; apply in_zrange in Hp; apply Z.eqb_eq in Hpd; auto). apply NoDup_concat_map.
  - apply NoDup_filter, NoDup_zrange.
  - intros p Hp. apply IN in Hp. apply NoDup_cN. lia.
  - intros p q a Hp Hq Ha Hb. apply IN in Hp, Hq. destruct Hp as [Hp1 Hp2]. destruct Hq as [Hq1 Hq2]. apply (own_disjoint p q a); [lia|lia| |]; (apply in_cN; [lia| |assumption]); apply I7; auto; lia.
Qed.
Lemma rd_ok mm d l n : 0 <= d < n -> m_start st d = Some l -> ok d l = true -> get (fst (rd n mm)) (concat (m_sg st d)) = map (fun j => dk d (l * B + j)) (zrange 0 (zlen (concat (m_sg st d)))).
Proof.
  intros Hd Hs' Ho. replace n with (d + 1 + Z.of_nat (Z.to_nat (n - d - 1))) by lia. generalize (Z.to_nat (n - d - 1)) as q. induction q as [|q IH].
  - replace (d + 1 + Z.of_nat 0) with (d + 1) by lia. rewrite rd_succ by lia. rewrite Hs'. cbn [fst]. apply child_readv_ok; [apply sg_NoDup; congruence|exact Ho].
  - replace (d + 1 + Z.of_nat (Datatypes.S q)) with (d + 1 + Z.of_nat q + 1) by lia. rewrite rd_succ by lia. cbn [fst]. rewrite <- IH. set (d' := d + 1 + Z.of_nat q). destruct (m_start st d') as [l'|] eqn:E; [|reflexivity]. apply get_ext. intros a Ha. apply child_readv_other. intros Hb.
    destruct (sg_own d a ltac:(congruence) Ha) as (p & P1 & P2 & P3). destruct (sg_own d' a ltac:(congruence) Hb) as (p' & P1' & P2' & P3'). pose proof (own_disjoint p p' a P1 P1' P3 P3'). subst p'. unfold d' in *. lia.
Qed.
Lemma sub_mid {A} (u v w : list A) : sub (zlen u) (zlen v) (u ++ v ++ w) = v.
Proof. pose proof (zlen_nonneg u). pose proof (zlen_nonneg v). rewrite sub_app_r by lia. rewrite Z.sub_diag. rewrite sub_app_l by lia. apply sub_all. lia. Qed.
(** where in a disk's read a chunk is *)
Lemma before_len d q0 n : a0 <= q0 -> q0 + 1 + Z.of_nat n < e0 -> pdN L q0 = d -> zlen (concat (map cN (filter (on d) (zrange q0 (q0 + 1 + Z.of_nat n))))) = (cntd L d (q0 + 1 + Z.of_nat n) - cntd L d q0) * C - pfx q0 * B.
Proof.
  intros H1 H2 H3. pose proof a0_range as (_ & A0). revert H2. induction n as [|n IH]; intros H2.
  - replace (q0 + 1 + Z.of_nat 0) with (q0 + 1) in * by lia. rewrite on_snoc by lia. rewrite zrange_empty by lia. rewrite cntd_succ by lia. rewrite H3, Z.eqb_refl. cbn [filter map concat app]. destruct (pfx_range q0 ltac:(lia)) as (_ & _ & _ & P). specialize (P ltac:(lia)). lia.
  - replace (q0 + 1 + Z.of_nat (Datatypes.S n)) with (q0 + 1 + Z.of_nat n + 1) in * by lia. set (p := q0 + 1 + Z.of_nat n) in *. rewrite on_snoc by lia. rewrite cntd_succ by lia. rewrite zlen_app, IH by lia. destruct (pdN L p =? d); [|change (zlen (@nil addr)) with 0; ring].
    destruct (pfx_range p ltac:(lia)) as (_ & _ & _ & P). specialize (P ltac:(lia)). rewrite pfx_0 in P by lia. replace (zlen (cN p)) with C by lia. ring.
Qed.
Definition storedN (p : Z) : Prop := map (fun j => dk (pdN L p) (poN L p * C + j)) (zrange 0 C) = scol L cs B V (tN p) (iN p).
Lemma chunk_read mm p : a0 <= p < e0 -> wanted p -> storedN p -> okd (pdN L p) = true -> get (fst (rd (ln L) mm)) (cN p) = sub (pfx p * B) (zlen (cN p)) (scol L cs B V (tN p) (iN p)).
Proof.
  intros Hp Hw Hst Ho. pose proof a0_range as (_ & A0). pose proof (pdN_range L HL p ltac:(lia)) as DR. set (d := pdN L p) in *. unfold okd in Ho. destruct (disk_spec d) as [(E & X)|(q0 & w & I1 & I2 & I3 & I4 & I5 & I6 & I7)]; [exfalso; now apply (X p Hp Hw)|]. rewrite I4 in Ho. pose proof (rd_ok mm d _ (ln L) DR I4 Ho) as RD. specialize (I6 p Hp eq_refl Hw).
  assert (SP : concat (m_sg st d) = concat (map cN (filter (on d) (zrange q0 p))) ++ cN p ++ concat (map cN (filter (on d) (zrange (p + 1) w)))).
  { rewrite I5. rewrite (on_split d q0 (p + 1) w) by lia. rewrite on_snoc by lia. unfold d. rewrite Z.eqb_refl. now rewrite <- app_assoc. }
  set (u := concat (map cN (filter (on d) (zrange q0 p)))) in *. set (w' := concat (map cN (filter (on d) (zrange (p + 1) w)))) in *.
  assert (POS : (poN L q0 * cs + pfx q0) * B + zlen u = poN L p * C + pfx p * B).
  { unfold col_len in *. destruct (Z.eq_dec q0 p) as [E|NE].
    - unfold u. rewrite E. rewrite zrange_empty by lia. cbn [filter map concat]. change (zlen (@nil addr)) with 0. ring.
    - pose proof (before_len d q0 (Z.to_nat (p - q0 - 1)) ltac:(lia) ltac:(lia) I3) as BL. replace (q0 + 1 + Z.of_nat (Z.to_nat (p - q0 - 1))) with p in BL by lia. fold u in BL. rewrite BL. rewrite (pfx_0 p) by lia. rewrite (rows L HL p), (rows L HL q0) by lia. rewrite I3. fold d. unfold col_len. ring. }
  destruct (pfx_range p Hp) as (Q1 & Q2 & Q3 & _). pose proof (zlen_nonneg u) as ZU. pose proof (zlen_nonneg w') as ZW.
  assert (GE : get (fst (rd (ln L) mm)) (cN p) = sub (zlen u) (zlen (cN p)) (get (fst (rd (ln L) mm)) (concat (m_sg st d)))) by (rewrite <- get_sub, SP, sub_mid; reflexivity).
  rewrite GE, RD. rewrite <- Hst. rewrite <- !map_sub. rewrite !zrange_sub; [|clear -Q1 HB; nia|exact Q2|lia|exact ZU|exact Q2|rewrite SP, !zlen_app; lia].
  rewrite !Z.add_0_l. replace (zlen u) with (zlen u + 0) at 1 by lia. replace (pfx p * B) with (pfx p * B + 0) at 1 by lia. rewrite !map_zrange_shift. apply map_ext. intros j. fold d. f_equal. lia.
Qed.

(** ** The stripes *)
Context (Hst : forall p l, 0 <= p -> s0 <= tN p <= s1 -> ok (pdN L p) l = true -> storedN p).
Lemma okd_some p : a0 <= p < e0 -> wanted p -> okd (pdN L p) = true -> storedN p.
Proof.
  intros Hp Hw Ho. pose proof a0_range as (_ & A0). unfold okd in Ho. destruct (disk_spec (pdN L p)) as [(E & X)|(q0 & w & I1 & I2 & I3 & I4 & I5 & I6 & I7)]; [exfalso; now apply (X p Hp Hw)|]. rewrite I4 in Ho. eapply Hst; eauto; [lia|now apply visited_t].
Qed.
Definition mm1 (mm : mem) : mem := fst (rd (ln L) mm).
Lemma deg_visited t i : 0 < faulted -> s0 <= t <= s1 -> 0 <= i < m + fe -> a0 <= t * k + i < e0.
Proof.
  intros Hd Ht Hi. destruct sca_eq as (j & _ & J & E & E1 & _). destruct ecid_spec as (_ & _ & E2 & _). rewrite E, (E1 Hd), (E2 Hd). clear -Ht Hi MP. nia.
Qed.
Lemma deg_cell mm t i : 0 < faulted -> s0 <= t <= s1 -> 0 <= i < m + fe -> okd (pd L t i) = true -> get (mm1 mm) (cellT t i) = scol L cs B V t i.
Proof.
  intros Hd Ht Hi Ho. pose proof fe_range as FR. pose proof (deg_visited t i Hd Ht Hi) as Hv. destruct (tiN t i ltac:(lia)) as [T1 T2]. assert (Hw : wanted (t * k + i)) by (unfold wanted; rewrite T2; lia). pose proof (okd_some _ Hv Hw Ho) as So. pose proof (chunk_read mm _ Hv Hw So Ho) as CR.
  unfold cN, pfx in CR. rewrite T1, T2 in CR. rewrite (proj2 (Z.ltb_lt i (m + fe))) in CR by lia. rewrite (proj2 (Z.ltb_lt 0 faulted) Hd) in CR. fold (mm1 mm) in CR. rewrite CR.
  rewrite (zlen_cell L cs B HB Hcs Hf H256 (ul t) (ue t) (DT t) (eA t) (eB t) i (sized_t _ Ht) (in_stripe_t _ Ht)) by lia. apply sub_all. pose proof s0_bounds as (K0 & _). apply Z.eq_le_incl. apply (zlen_col L cs B HB Hcs Hf H256 lba (eA t) (eB t)); [apply scol_good; auto; lia|lia].
Qed.
Definition good_t (mm : mem) (t : Z) : Prop := forall i, 0 <= i < m -> get mm (duT t i) = sub (pre t i * B) (ulen t i * B) (scol L cs B V t i).
Lemma deg_good mm t : s0 <= t <= s1 -> (forall i, 0 <= i < m -> get mm (cellT t i) = scol L cs B V t i) -> good_t mm t.
Proof.
  intros Ht H i Hi. rewrite (cell_du L cs B HB Hcs Hf H256 (ul t) (ue t) (DT t) (eA t) (eB t) (scol L cs B V t) mm i (sized_t _ Ht) (in_stripe_t _ Ht)) by lia. now rewrite H.
Qed.
Lemma healthy_du mm t i : faulted = 0 -> s0 <= t <= s1 -> 0 <= i < m -> okd (pd L t i) = true -> get (mm1 mm) (duT t i) = sub (pre t i * B) (ulen t i * B) (scol L cs B V t i).
Proof.
  intros F0 Ht Hi Ho. destruct (tiN t i ltac:(lia)) as [T1 T2]. assert (FE : fe = 0) by (unfold fe; lia). assert (Hw : wanted (t * k + i)) by (unfold wanted; rewrite T2; lia). destruct (healthy_shape t i F0 Ht Hi) as (_ & _ & _ & S4).
  assert (DEC : a0 <= t * k + i < e0 \/ ~ (a0 <= t * k + i < e0)) by lia. destruct DEC as [Hv|Hv].
  - pose proof (okd_some _ Hv Hw Ho) as So. pose proof (chunk_read mm _ Hv Hw So Ho) as CR. unfold cN, pfx in CR. rewrite T1, T2 in CR. rewrite (proj2 (Z.ltb_lt i (m + fe))) in CR by lia. rewrite F0 in CR. cbn [Z.ltb Z.compare] in CR. fold (mm1 mm) in CR. rewrite CR. f_equal. apply (zlen_du L cs B HB Hcs Hf H256 (ul t) (ue t) (DT t) (eA t) (eB t) i (sized_t _ Ht) (in_stripe_t _ Ht)).
  - specialize (S4 Hv). assert (ZD := zlen_du L cs B HB Hcs Hf H256 (ul t) (ue t) (DT t) (eA t) (eB t) i (sized_t _ Ht) (in_stripe_t _ Ht)). rewrite S4 in *. unfold sub. rewrite ztake_0 by lia. destruct (duT t i) as [|x l]; [reflexivity|]. rewrite zlen_cons in ZD. pose proof (zlen_nonneg l). lia.
Qed.
Lemma good_right mm t : s0 <= t <= s1 -> good_t mm t -> get mm (DT t) = map V (zrange (ul t * B) (ue t * B)).
Proof.
  intros Ht H. apply (data_right L cs B HB Hcs Hf H256 (ul t) (ue t) (DT t) (eA t) (eB t) (scol L cs B V t) V mm (sized_t _ Ht) (in_stripe_t _ Ht)). intros i Hi. apply (du_right L cs B HB Hcs Hf H256 (ul t) (ue t) (DT t) (eA t) (eB t) (scol L cs B V t) V mm i (sized_t _ Ht) (in_stripe_t _ Ht) Hi); [|now apply H].
  rewrite (scol_data L cs B HL) by exact Hi. unfold dcol. rewrite chkT by exact Ht. unfold col_len. do 2 f_equal; ring.
Qed.
Lemma good_all mm : (forall t, s0 <= t <= s1 -> good_t mm t) -> get mm D = map V (zrange (lba * B) (elba * B)).
Proof. intros H. apply all_right. intros t Ht. apply good_right; auto. Qed.

(** ** Recovery *)
Definition okT (t i : Z) : bool := okd (pd L t i).
Definition enough (t : Z) : Prop := m <= zlen (filter (okT t) (zrange 0 (m + fe))).
Notation dv := (map okd (zrange 0 (ln L))).
Lemma dvs_eq t : s0 <= t <= s1 ->
  ofold (fun l cl => match nth_error dv (Z.to_nat (l_disk (snd cl))) with Some r => Some (l ++ [r]) | None => None end)
        (chunk_iter L (Data (t * m)) (if faulted <? lf L then Parity (t * m) faulted else Data ((t + 1) * m))) [] = Some (map (okT t) (zrange 0 (m + fe))).
Proof.
  intros Ht. pose proof s0_bounds as (K0 & _). pose proof fe_range as FR. assert (CI : chunk_iter L (Data (t * m)) (if faulted <? lf L then Parity (t * m) faulted else Data ((t + 1) * m)) = map (ploc L t) (zrange 0 (m + fe))).
  { replace (t * m) with (t * m + 0) at 1 by lia. destruct (Z.ltb_spec faulted (lf L)) as [F|F].
    - destruct (iter_to_parity L HL t 0 faulted) as [E|E]; [lia|lia|lia|lia| |lia]. rewrite E. unfold fe. do 2 f_equal. lia.
    - rewrite (iter_to_end L HL) by lia. do 2 f_equal. unfold fe, dm. lia. }
  rewrite CI. destruct (ofold_inv (fun l cl => match nth_error dv (Z.to_nat (l_disk (snd cl))) with Some r => Some (l ++ [r]) | None => None end) (ploc L t) (fun i l => l = map (okT t) (zrange 0 i)) 0 (m + fe) []) as (s' & E & ->); [lia|reflexivity| |exact E].
  intros i l Hi ->. cbn [ploc snd]. pose proof (pdN_range L HL (t * k + i) ltac:(nia)) as R. change (l_disk (id2loc L (pchunk L t i))) with (pdN L (t * k + i)).
  rewrite nth_error_map. assert (NE : nth_error (zrange 0 (ln L)) (Z.to_nat (pdN L (t * k + i))) = Some (pdN L (t * k + i))).
  { rewrite (zrange_split 0 (pdN L (t * k + i)) (ln L)) by lia. rewrite nth_error_app2 by (rewrite zrange_length; lia). rewrite zrange_length, Z.sub_0_r, Nat.sub_diag. rewrite zrange_cons by lia. reflexivity. }
  rewrite NE. cbn [option_map]. eexists. split; [reflexivity|]. rewrite (zrange_snoc 0 (i + 1)) by lia. replace (i + 1 - 1) with i by lia. rewrite map_app. reflexivity.
Qed.
Definition rinv (mm : mem) (t : Z) (acc : mem * slice * bool) : Prop :=
  let '(mm', rest, fl) := acc in
  rest = zdrop ((Z.min elba (ul t) - lba) * B) D /\
  (faulted = 0 -> mm' = mm1 mm) /\
  (0 < faulted -> forall t' i, t <= t' <= s1 -> 0 <= i < m + fe -> get mm' (cellT t' i) = get (mm1 mm) (cellT t' i)) /\
  (fl = true -> forall t', s0 <= t' < t -> good_t mm' t') /\
  (fl = true <-> forall t', s0 <= t' < t -> enough t').
Lemma cells_apart t i t' i' a : 0 < faulted -> s0 <= t <= s1 -> s0 <= t' <= s1 -> 0 <= i < m + fe -> 0 <= i' < m + fe -> In a (cellT t i) -> In a (cellT t' i') -> t = t' /\ i = i'.
Proof.
  intros Hd Ht Ht' Hi Hi' Ha Hb. pose proof fe_range as FR. destruct (tiN t i ltac:(lia)) as [T1 T2]. destruct (tiN t' i' ltac:(lia)) as [T1' T2'].
  assert (E : t * k + i = t' * k + i').
  { apply (own_disjoint _ _ a); [now apply deg_visited|now apply deg_visited| |]; apply in_cell; try assumption; try (apply deg_visited; assumption); unfold wanted; rewrite ?T1, ?T2, ?T1', ?T2'; try lia; assumption. }
  rewrite E in T1, T2. split; congruence.
Qed.
Lemma distinct_t t : 0 < faulted -> s0 <= t <= s1 -> distinct L cs B (ul t) (ue t) (DT t) (eA t) (eB t) (m + fe).
Proof.
  intros Hd Ht. pose proof fe_range as FR. split.
  - intros i Hi. destruct (tiN t i ltac:(lia)) as [T1 T2]. pose proof (NoDup_cell (t * k + i) Hd (deg_visited t i Hd Ht Hi)) as X. rewrite T1, T2 in X. exact X.
  - intros i j a Hi Hj Hne H1 H2. destruct (cells_apart t i t j a); auto.
Qed.
Lemma recover_ok mm t acc : s0 <= t <= s1 -> rinv mm t acc -> exists acc', recover_step L cs B faulted lba elba (m_ex st) s0 dv acc t = Some acc' /\ rinv mm (t + 1) acc'.
Proof.
  intros Ht. destruct acc as [[mm' rest] fl]. intros (R1 & R2 & R3 & R4 & R5). pose proof fe_range as FR. destruct (ulue t Ht) as (U1 & U2 & U3 & U4). unfold recover_step. cbn [fst snd]. change (Z.max lba (t * W)) with (ul t). change (Z.min elba ((t + 1) * W)) with (ue t).
  assert (UM : Z.min elba (ul t) = ul t) by lia. rewrite UM in R1.
  assert (SP : split_to ((ue t - ul t) * B) rest = Some (DT t, zdrop ((Z.min elba (ul (t + 1)) - lba) * B) D)).
  { rewrite R1. pose proof zlen_D as ZD. rewrite split_to_ok; [|rewrite zlen_drop by nia; rewrite ZD; clear -U1 U3 U4 HB; nia]. rewrite zdrop_zdrop by (clear -U1 U3 HB; nia). do 2 f_equal. unfold DT, sub. f_equal.
    assert (UU : Z.min elba (ul (t + 1)) = ue t). { destruct (Z.eq_dec t s1) as [->|]; [|destruct (ul_next t ltac:(lia)); lia]. rewrite ue_last. pose proof s1_bounds. unfold ul. lia. } rewrite UU. ring. }
  rewrite SP. cbn [obind fst snd]. rewrite (dvs_eq t Ht). cbn [obind]. pose proof s0_bounds as (K0 & _).
  assert (ENS : forall X : Prop, (X <-> enough t) -> ((fl = true /\ X) <-> forall t', s0 <= t' < t + 1 -> enough t')).
  { intros X HX. split.
    - intros (F1 & F2) t' Ht'. destruct (Z.eq_dec t' t) as [->|]; [now apply HX|]. apply R5; [exact F1|lia].
    - intros H. split; [apply R5; intros; apply H; lia|]. apply HX. apply H. lia. }
  destruct (Z_lt_ge_dec (zlen (filter (okT t) (zrange 0 (m + fe)))) m) as [HF|HF].
  - rewrite (reconstruct_fail L cs B Hf (ul t) (ue t) (DT t) (eA t) (eB t) (scol L cs B V t)) by lia. cbn [obind fst snd]. eexists. split; [reflexivity|]. unfold rinv. rewrite andb_false_r. split; [reflexivity|]. split; [exact R2|]. split; [intros Hd t' i Ht' Hi; apply R3; auto; lia|]. split; [discriminate|].
    rewrite <- (ENS False); [split; [discriminate|tauto]|]. unfold enough. split; [tauto|lia].
  - assert (EN : enough t) by (unfold enough; lia). destruct (Z.eq_dec faulted 0) as [F0|F0].
    + assert (FE : fe = 0) by (unfold fe; lia). rewrite FE, Z.add_0_r in *. assert (AO : forall i, 0 <= i < m -> okT t i = true).
      { intros i Hi. destruct (okT t i) eqn:Ei; [reflexivity|]. exfalso. rewrite (zrange_split 0 i m) in HF by lia. rewrite filter_app, zlen_app in HF. rewrite (zrange_cons i m) in HF by lia. cbn [filter] in HF. rewrite Ei in HF. pose proof (count_le_length (okT t) (zrange 0 i)) as Y0. unfold count in Y0. rewrite zrange_length in Y0. pose proof (count_le_length (okT t) (zrange (i + 1) m)) as Y. unfold count in Y. rewrite zrange_length in Y. unfold zlen in *. lia. }
      rewrite (reconstruct_intact L cs B Hf (ul t) (ue t) (DT t) (eA t) (eB t) (scol L cs B V t)) by (auto; lia). cbn [obind fst snd]. eexists. split; [reflexivity|]. unfold rinv. rewrite andb_true_r. split; [reflexivity|]. split; [exact R2|]. split; [lia|]. split.
      * intros F1 t' Ht'. destruct (Z.eq_dec t' t) as [->|]; [|apply R4; auto; lia]. intros i Hi. rewrite (R2 F0). apply healthy_du; auto. now apply AO.
      * rewrite <- (ENS True) by tauto. tauto.
    + assert (Hd : 0 < faulted) by lia. destruct INVe as (_ & _ & _ & _ & _ & IX). destruct (IX Hd t Ht) as (rs & EX & _). assert (NE : Z.min (m + fe) (e0 - t * k) = m + fe). { destruct ecid_spec as (_ & _ & E2 & _). rewrite (E2 Hd). assert (t * k <= s1 * k) by (clear -Ht MP; nia). lia. } rewrite NE in EX. change (fun i => exsT t i) with (exs L cs (ul t) (ue t) (eA t) (eB t)) in EX. rewrite EX.
      assert (CR : forall i, 0 <= i < m + fe -> okT t i = true -> get mm' (cellT t i) = scol L cs B V t i) by (intros i Hi Ho; rewrite (R3 Hd t i ltac:(lia) Hi); apply deg_cell; auto).
      destruct (reconstruct_ok L cs B HB Hcs Hf H256 (ul t) (ue t) (DT t) (eA t) (eB t) (scol L cs B V t) (okT t) (m + fe) mm' rs (sized_t _ Ht) (in_stripe_t _ Ht) (scol_good L cs B HL V t HV ltac:(lia)) (distinct_t t Hd Ht) ltac:(lia) CR ltac:(lia)) as (mm2 & E2 & G2 & O2).
      rewrite E2. cbn [obind fst snd]. eexists. split; [reflexivity|]. unfold rinv. rewrite andb_true_r. split; [reflexivity|]. split; [lia|]. split; [|split].
      * intros _ t' i Ht' Hi. rewrite <- (R3 Hd t' i ltac:(lia) Hi). apply get_ext. intros a Ha. apply O2. intros j Hj Hb. destruct (cells_apart t j t' i a); auto; lia.
      * intros F1 t' Ht'. destruct (Z.eq_dec t' t) as [->|NT]; [now apply deg_good|]. intros i Hi. rewrite <- (R4 F1 t' ltac:(lia) i Hi). apply get_ext. intros a Ha. apply O2. intros j Hj Hb. assert (In a (cellT t' i)) by (unfold cell; rewrite !in_app_iff; auto). destruct (cells_apart t j t' i a); auto; lia.
      * rewrite <- (ENS True) by tauto. tauto.
Qed.
End Final.

(** ** The whole read *)
Context (Hst : forall p l, 0 <= p -> s0 <= tN p <= s1 -> ok (pdN L p) l = true -> storedN p).
Theorem multi_read mm : exists (okd : Z -> bool) mm' b, read_at_multi L cs B dk ok junk faulted mm ((elba - lba) * B) lba = Some (mm', b) /\
  (forall d, (forall l, ok d l = true) -> okd d = true) /\
  (forall p, a0 <= p < e0 -> wanted p -> (forall l, ok (pdN L p) l = false) -> okd (pdN L p) = false) /\
  (b = true -> get mm' D = map V (zrange (lba * B) (elba * B))) /\
  (b = true <-> forall t, s0 <= t <= s1 -> m <= zlen (filter (fun i => okd (pd L t i)) (zrange 0 (m + fe)))).
Proof.
  pose proof lba_elba as LE. pose proof a0_range as (_ & A0). pose proof fe_range as FR. destruct loop_ok as (st & EL & Iv). exists (okd st). unfold read_at_multi. cbv zeta. rewrite Z.div_mul by lia. replace (lba + (elba - lba)) with elba by lia. replace (cs * m) with W by ring. fold s0 s1. change ((if 0 <? faulted then lba - lba mod lps L cs else lba) / cs) with sca.
  change (if (0 <? faulted) || (lps L cs - cs <? elba mod lps L cs) then if faulted <? lf L then Parity (s1 * m) faulted else Data ((s1 + 1) * m) else Data (div_ceil elba cs)) with ecid.
  change (Mst (fun _ : Z => []) (fun _ : Z => []) (fun _ : Z => None) D (fun _ : Z => []) 1) with init. rewrite EL. cbn [obind].
  change (read_disks L B dk ok junk st mm) with (rd st (ln L) mm). pose proof (pdN_range L HL a0 A0) as NR. rewrite (rd_res st (ln L) mm) by lia.
  assert (O1 : forall d, (forall l, ok d l = true) -> okd st d = true) by (intros d Hd; unfold okd; destruct (m_start st d); auto).
  assert (O2 : forall p, a0 <= p < e0 -> wanted p -> (forall l, ok (pdN L p) l = false) -> okd st (pdN L p) = false).
  { intros p Hp Hw Hd. unfold okd. destruct (disk_spec st Iv (pdN L p)) as [(E & X)|(q0 & w & I1 & I2 & I3 & I4 & I5 & I6 & I7)]; [exfalso; now apply (X p Hp Hw)|]. rewrite I4. apply Hd. }
  destruct (forallb (fun b => b) (map (okd st) (zrange 0 (ln L)))) eqn:FA.
  - assert (AO : forall d, 0 <= d < ln L -> okd st d = true). { intros d Hd. rewrite forallb_forall in FA. apply FA. apply in_map. now apply in_zrange. }
    assert (AT : forall t i, s0 <= t -> 0 <= i -> okd st (pd L t i) = true). { intros t i Ht Hi. apply AO. apply (pdN_range L HL (t * k + i)). pose proof s0_bounds as (K0 & _). nia. }
    exists (mm1 st mm), true. split; [reflexivity|]. split; [exact O1|]. split; [exact O2|]. split.
    + intros _. apply good_all. intros t Ht. destruct (Z.eq_dec faulted 0) as [F0|F0].
      * intros i Hi. apply healthy_du; auto. apply AT; lia.
      * apply deg_good; try exact Ht; try exact Hst; try exact Iv. intros i Hi. apply deg_cell; auto; try lia. apply AT; lia.
    + split; [|auto]. intros _ t Ht. rewrite (all_ok_count (fun _ => []) (fun _ => []) (fun _ => [])); [lia|lia|]. intros i Hi. apply AT; lia.
  - destruct (ofold_inv (recover_step L cs B faulted lba elba (m_ex st) s0 (map (okd st) (zrange 0 (ln L)))) (fun t => t) (rinv st mm) s0 (s1 + 1) (fst (rd st (ln L) mm), D, true)) as (acc & E & RI); [lia| | |].
    + unfold rinv. rewrite ul_first. split; [rewrite Z.min_r, Z.sub_diag by lia; symmetry; apply zdrop_0; lia|]. split; [reflexivity|]. split; [reflexivity|]. split; [intros _ t' Ht'; lia|]. split; [intros _ t' Ht'; lia|reflexivity].
    + intros t acc Ht RI. apply (recover_ok st Iv Hst); [lia|exact RI].
    + rewrite map_id in E. rewrite E. cbn [obind]. destruct acc as [[mm' rest] fl]. destruct RI as (_ & _ & _ & R4 & R5). exists mm', fl. split; [reflexivity|]. split; [exact O1|]. split; [exact O2|]. split.
      * intros F1. apply good_all. intros t Ht. apply R4; auto; lia.
      * rewrite R5. unfold enough. split; intros H t Ht; apply H; lia.
Qed.
End Geom.
