(** Properties C01-C05, C53, C54: the PRIME-S declustered layout. *)
From Coq Require Import Znumtheory.
From Verif Require Import Common PrimeS_Model PrimeS_Proofs PrimeS_Proofs2 PrimeSW_Model PrimeSW_Proofs.

(** ** Specification vocabulary, independent of the model's helpers *)

(** The geometries of the paper: a prime number of disks, at least one parity and
    one data chunk per stripe, stripes no wider than the array. *)
Definition legal (L : layout) : Prop :=
  prime (ln L) /\ 1 < lk L <= ln L /\ 0 < lf L < lk L.

(** The chunks that exist: data chunks are numbered from 0; a parity chunk is
    named by the first data chunk of its stripe and its parity index. *)
Definition chunk_exists (L : layout) (x : chunkid) : Prop :=
  match x with
  | Data a => 0 <= a
  | Parity a i => 0 <= a /\ (lk L - lf L | a) /\ 0 <= i < lf L
  end.

(** Chunks in the order in which a stripe writer visits them: the data chunks of
    stripe 0, its parity chunks, the data chunks of stripe 1, ... *)
Definition nth_chunk (L : layout) (p : Z) : chunkid :=
  let m := lk L - lf L in
  let s := p / lk L in
  let b := p mod lk L in
  if b <? m then Data (s * m + b) else Parity (s * m) (b - m).
Definition chunk_number (L : layout) (x : chunkid) : Z :=
  let m := lk L - lf L in
  match x with
  | Data a => (a / m) * lk L + a mod m
  | Parity a i => (a / m) * lk L + m + i
  end.

Definition stripe_of (L : layout) (x : chunkid) : Z := chunk_number L x / lk L.
(** The repetition of the layout pattern a chunk belongs to: one repetition has
    n * (n - 1) stripes. *)
Definition repetition_of (L : layout) (x : chunkid) : Z := stripe_of L x / (ln L * (ln L - 1)).

(** ** Connecting lemmas *)

Lemma legal_valid L : legal L <-> valid_layout L.
Proof. split; [intros (H1 & H2 & H3); split; auto|intros [H1 H2 H3]; unfold legal; auto]. Qed.

Lemma exists_valid L x : legal L -> chunk_exists L x -> valid_id L x.
Proof.
  intros HL. apply legal_valid in HL. pose proof (m_bound L HL) as Hm.
  destruct x as [a|a i]; cbn; [auto|]. intros (H1 & H2 & H3). repeat split; try lia.
  apply Z.mod_divide; [lia|exact H2].
Qed.

Lemma valid_exists L x : legal L -> valid_id L x -> chunk_exists L x.
Proof.
  intros HL. apply legal_valid in HL. pose proof (m_bound L HL) as Hm.
  destruct x as [a|a i]; cbn; [auto|]. intros (H1 & H2 & H3). repeat split; try lia.
  apply Z.mod_divide; [unfold gm in Hm; lia|exact H2].
Qed.

Lemma chunk_number_pos L c : legal L -> valid_coord L c -> chunk_number L (id_of L c) = pos L c.
Proof.
  intros HL Hc. apply legal_valid in HL. pose proof (m_bound L HL) as Hm.
  pose proof Hc as (Hr & Hz & Ht & Hb).
  unfold chunk_number, pos, id_of. cbn zeta. fold (gm L). rewrite (dc_m L).
  destruct (Z.ltb_spec (co_b c) (gm L)).
  - replace (co_r c * (gm L * (ln L * (ln L - 1))) + co_s L c * gm L + co_b c)
      with (co_b c + (co_r c * (ln L * (ln L - 1)) + co_s L c) * gm L) by ring.
    rewrite Z.div_add, Z.mod_add by lia. rewrite Z.div_small, Z.mod_small by lia. lia.
  - replace (co_r c * (gm L * (ln L * (ln L - 1))) + co_s L c * gm L)
      with ((co_r c * (ln L * (ln L - 1)) + co_s L c) * gm L) by ring.
    rewrite Z.div_mul by lia. lia.
Qed.

Lemma nth_chunk_id_of L p : legal L -> 0 <= p -> nth_chunk L p = id_of L (coord_at L p).
Proof.
  intros HL Hp. apply legal_valid in HL. pose proof (n_pos L HL) as Hn.
  pose proof (m_bound L HL) as Hm.
  unfold nth_chunk, id_of, coord_at, co_s; cbn [co_r co_z co_t co_b]. cbn zeta.
  fold (gm L). rewrite <- Z.div_mod by lia. rewrite (dc_m L).
  set (N := ln L * (ln L - 1)). assert (0 < N) by (unfold N; nia).
  pose proof (Z.div_mod (p / lk L) N ltac:(lia)) as E.
  replace (p / lk L / N * (gm L * N) + (p / lk L) mod N * gm L) with (p / lk L * gm L)
    by (rewrite E at 1; ring).
  reflexivity.
Qed.

Lemma coord_ex L x : legal L -> chunk_exists L x ->
  exists c, valid_coord L c /\ id_of L c = x.
Proof.
  intros HL Hx. pose proof (exists_valid L x HL Hx) as Hv. apply legal_valid in HL.
  exists (coord_of L x). split; [apply coord_of_valid; auto|apply id_of_coord_of; auto].
Qed.

Lemma stripe_of_coord L c : legal L -> valid_coord L c ->
  stripe_of L (id_of L c) = co_r c * (ln L * (ln L - 1)) + co_s L c.
Proof.
  intros HL Hc. unfold stripe_of. rewrite chunk_number_pos by assumption. unfold pos.
  destruct Hc as (_ & _ & _ & Hb). rewrite Z.add_comm, Z.div_add by lia.
  rewrite Z.div_small by lia. lia.
Qed.

Lemma repetition_of_coord L c : legal L -> valid_coord L c -> repetition_of L (id_of L c) = co_r c.
Proof.
  intros HL Hc. unfold repetition_of. rewrite stripe_of_coord by assumption.
  apply legal_valid in HL. pose proof (n_pos L HL). pose proof (co_s_range L c Hc).
  rewrite Z.add_comm, Z.div_add by nia. rewrite Z.div_small by lia. lia.
Qed.

(** ** C01 *)

Theorem C01_layout_invertible : forall L x,
  legal L -> chunk_exists L x -> loc2id L (id2loc L x) = Some x.
Proof.
  intros L x HL Hx. destruct (coord_ex L x HL Hx) as (c & Hc & <-).
  apply legal_valid in HL. apply loc2id_id2loc; assumption.
Qed.

Theorem C01_layout_injective : forall L x y,
  legal L -> chunk_exists L x -> chunk_exists L y -> id2loc L x = id2loc L y -> x = y.
Proof.
  intros L x y HL Hx Hy E.
  pose proof (C01_layout_invertible L x HL Hx) as H1.
  pose proof (C01_layout_invertible L y HL Hy) as H2. congruence.
Qed.

Example legal_7_4_2 : legal (Layout 7 4 2).
Proof.
  split; [|cbn; lia]. destruct (is_prime_spec 7) as (b & H & Hb).
  vm_compute in H. injection H as <-. apply Hb. reflexivity.
Qed.
Example C01_ex : chunk_exists (Layout 7 4 2) (Parity 100 1) /\
  id2loc (Layout 7 4 2) (Parity 100 1) = Loc 3 28 /\
  loc2id (Layout 7 4 2) (Loc 3 28) = Some (Parity 100 1).
Proof. split; [cbn; repeat split; try lia; exists 50; reflexivity|]. vm_compute. auto. Qed.

(** ** C02 *)

Theorem C02_stripe_on_distinct_disks : forall L x y,
  legal L -> chunk_exists L x -> chunk_exists L y ->
  stripe_of L x = stripe_of L y -> x <> y ->
  l_disk (id2loc L x) <> l_disk (id2loc L y).
Proof.
  intros L x y HL Hx Hy Hs Hne.
  destruct (coord_ex L x HL Hx) as (c & Hc & <-). destruct (coord_ex L y HL Hy) as (c' & Hc' & <-).
  rewrite !stripe_of_coord in Hs by assumption.
  pose proof (repetition_of_coord L c HL Hc) as Hr1.
  pose proof (repetition_of_coord L c' HL Hc') as Hr2.
  unfold repetition_of in Hr1, Hr2. rewrite !stripe_of_coord in Hr1, Hr2 by assumption.
  rewrite Hs in Hr1. rewrite Hr1 in Hr2.
  apply legal_valid in HL. rewrite !id2loc_id_of by assumption. cbn [l_disk].
  assert (Es : co_s L c = co_s L c') by (rewrite Hr2 in Hs; lia).
  destruct c as [r z t b], c' as [r' z' t' b']. unfold co_s in Es; cbn in Hr2, Es.
  pose proof Hc as (_ & Hz & Ht & _). pose proof Hc' as (_ & Hz' & Ht' & _). cbn in Hz, Ht, Hz', Ht'.
  assert (z = z') by nia. subst r' z'. assert (t = t') by lia. subst t'.
  intros E. apply stripe_disks_distinct in E; [|assumption|assumption|assumption].
  subst b'. apply Hne. reflexivity.
Qed.

Example C02_ex : stripe_of (Layout 7 4 2) (Data 101) = stripe_of (Layout 7 4 2) (Parity 100 1)
  /\ l_disk (id2loc (Layout 7 4 2) (Data 101)) = 6.
Proof. vm_compute. auto. Qed.

(** ** C03 *)

Theorem C03_layout_is_dense : forall L d row,
  legal L -> 0 <= d < ln L -> 0 <= row ->
  exists! x, chunk_exists L x /\ id2loc L x = Loc d row.
Proof.
  intros L d row HL Hd Hrow. pose proof HL as HV. apply legal_valid in HV.
  destruct (id2loc_loc2id L HV (Loc d row)) as (c & Hc & _ & E); [split; cbn; lia|].
  assert (Hex : chunk_exists L (id_of L c)).
  { apply valid_exists; [exact HL|]. apply id_of_valid; assumption. }
  exists (id_of L c). split; [auto|].
  intros y [Hy E']. apply (C01_layout_injective L); auto. congruence.
Qed.

Theorem C03_repetition_fills_its_rows : forall L x,
  legal L -> chunk_exists L x ->
  let rows := lk L * (ln L - 1) in
  0 <= l_disk (id2loc L x) < ln L /\
  repetition_of L x * rows <= l_offset (id2loc L x) < (repetition_of L x + 1) * rows.
Proof.
  intros L x HL Hx rows. destruct (coord_ex L x HL Hx) as (c & Hc & <-).
  rewrite repetition_of_coord by assumption. apply legal_valid in HL.
  pose proof (id2loc_valid L HL c Hc) as [H1 H2]. split; [exact H1|].
  pose proof (offset_rep L HL c Hc) as Ho. pose proof (depth_pos L HL) as Hd.
  change rows with (depth L).
  pose proof (Z.div_mod (l_offset (id2loc L (id_of L c))) (depth L) ltac:(lia)) as E.
  pose proof (Z.mod_pos_bound (l_offset (id2loc L (id_of L c))) (depth L) ltac:(lia)).
  rewrite Ho in E. lia.
Qed.

Example C03_ex : id2loc (Layout 7 4 2) (Parity 82 0) = Loc 0 23
  /\ repetition_of (Layout 7 4 2) (Parity 82 0) = 0 /\ 4 * (7 - 1) = 24.
Proof. vm_compute. auto. Qed.

(** ** C04 *)

Theorem C04_iterator_agrees : forall L a b,
  legal L -> chunk_exists L a -> chunk_exists L b -> chunk_number L a <= chunk_number L b ->
  iter_collect L (S (Z.to_nat (chunk_number L b - chunk_number L a))) (iter_new L a b) =
  (map (fun p => (nth_chunk L p, id2loc L (nth_chunk L p)))
       (zrange (chunk_number L a) (chunk_number L b)), true).
Proof.
  intros L a b HL Ha Hb. destruct (coord_ex L a HL Ha) as (c & Hc & <-).
  destruct (coord_ex L b HL Hb) as (c' & Hc' & <-).
  rewrite !chunk_number_pos by assumption. intros Hle. pose proof HL as HV. apply legal_valid in HV.
  rewrite iter_correct by assumption. f_equal. apply map_ext_in. intros p Hp.
  apply in_zrange in Hp. pose proof (pos_nonneg L HV c Hc).
  rewrite nth_chunk_id_of by (assumption || lia). reflexivity.
Qed.

(** [nth_chunk] and [chunk_number] number every existing chunk exactly once. *)
Theorem C04_numbering : forall L,
  legal L ->
  (forall p, 0 <= p -> chunk_exists L (nth_chunk L p) /\ chunk_number L (nth_chunk L p) = p) /\
  (forall x, chunk_exists L x -> 0 <= chunk_number L x /\ nth_chunk L (chunk_number L x) = x).
Proof.
  intros L HL. pose proof HL as HV. apply legal_valid in HV. split.
  - intros p Hp. rewrite nth_chunk_id_of by assumption.
    pose proof (coord_at_valid L HV p Hp) as Hc. split.
    + apply valid_exists; [exact HL|]. apply id_of_valid; assumption.
    + rewrite chunk_number_pos by assumption. apply pos_coord_at; assumption.
  - intros x Hx. destruct (coord_ex L x HL Hx) as (c & Hc & <-).
    rewrite chunk_number_pos by assumption. pose proof (pos_nonneg L HV c Hc).
    split; [assumption|]. rewrite nth_chunk_id_of by assumption. now rewrite coord_at_pos.
Qed.

Example C04_ex :
  fst (iter_collect (Layout 5 4 2) 10 (iter_new (Layout 5 4 2) (Parity 38 1) (Data 42))) =
  [(Parity 38 1, Loc 4 15); (Data 40, Loc 0 16); (Data 41, Loc 1 16);
   (Parity 40 0, Loc 2 16); (Parity 40 1, Loc 3 16)].
Proof. vm_compute. reflexivity. Qed.

(** ** C05 *)

(** Whatever the constructor accepts is a legal geometry. *)
Theorem C05_constructor_accepts_only_legal : forall md n k f P,
  new md n k f = Some P -> legal (Layout n k f) /\ n <= 215.
Proof. intros md n k f P H. apply new_valid in H. rewrite legal_valid. exact H. Qed.

(** In a release build, every geometry of at most 181 disks is computed exactly,
    for every chunk number that (nearly) fits in 64 bits. *)
Theorem C05_no_overflow_partial : forall n k f P x,
  new Release n k f = Some P -> n <= 181 ->
  chunk_exists (Layout n k f) x -> address x < 2^64 - 2^16 ->
  w_id2loc Release P x = Some (id2loc (Layout n k f) x) /\
  w_loc2id Release P (id2loc (Layout n k f) x) = Some x.
Proof.
  intros n k f P x H Hn Hx Ha. destruct (new_valid _ _ _ _ _ H) as [HV _].
  pose proof (new_P0 n k f HV Hn Release) as HP. rewrite H in HP. injection HP as ->.
  destruct (coord_ex (Layout n k f) x (proj2 (legal_valid _) HV) Hx) as (c & Hc & <-).
  split.
  - apply w_id2loc_ok; try assumption. discriminate.
  - apply w_loc2id_ok; assumption.
Qed.

(** In a debug build this needs n (n - 1) m <= 2^15 as well, or the code panics. *)
Theorem C05_debug_partial : forall n k f P x,
  new Debug n k f = Some P -> n <= 181 -> n * (n - 1) * (k - f) <= 2^15 ->
  chunk_exists (Layout n k f) x -> address x < 2^64 - 2^16 ->
  w_id2loc Debug P x = Some (id2loc (Layout n k f) x) /\
  w_loc2id Debug P (id2loc (Layout n k f) x) = Some x.
Proof.
  intros n k f P x H Hn Hm Hx Ha. destruct (new_valid _ _ _ _ _ H) as [HV _].
  pose proof (new_P0 n k f HV Hn Debug) as HP. rewrite H in HP. injection HP as ->.
  destruct (coord_ex (Layout n k f) x (proj2 (legal_valid _) HV) Hx) as (c & Hc & <-).
  split.
  - apply w_id2loc_ok; try assumption. intros _. exact Hm.
  - apply w_loc2id_ok; assumption.
Qed.

(** The unrestricted claim is false: 191 disks are accepted, but chunk 65536 is
    sent to row 2^64 - 171 of the wrong disk. *)
Theorem C05_no_overflow_refuted : exists n k f P x,
  new Release n k f = Some P /\ chunk_exists (Layout n k f) x /\ address x < 2^17 /\
  w_id2loc Release P x <> Some (id2loc (Layout n k f) x) /\
  (exists l, w_id2loc Release P x = Some l /\ 2^63 < l_offset l).
Proof.
  exists 191, 3, 1. eexists. exists (Data 65536).
  split; [vm_compute; reflexivity|]. split; [cbn; lia|]. split; [cbn; lia|].
  split; [vm_compute; discriminate|]. eexists. split; [vm_compute; reflexivity|]. reflexivity.
Qed.

(** And debug builds panic on a geometry of 37 disks. *)
Theorem C05_debug_refuted : exists n k f P x,
  new Debug n k f = Some P /\ chunk_exists (Layout n k f) x /\ w_id2loc Debug P x = None.
Proof.
  exists 37, 31, 1. eexists. exists (Data 39959).
  split; [vm_compute; reflexivity|]. split; [cbn; lia|]. vm_compute. reflexivity.
Qed.

Example C05_ex : match new Release 181 100 9 with
  | Some P => w_id2loc Release P (Data 123456789012345) = Some (id2loc (Layout 181 100 9) (Data 123456789012345))
  | None => False end.
Proof. vm_compute. reflexivity. Qed.

(** ** C53: sequential reads are spread over the disks *)

Theorem C53_parallel_read_count : forall L a0 c d,
  legal L -> 0 <= a0 -> 0 <= c ->
  Z.of_nat (length (filter (fun a => l_disk (id2loc L (Data a)) =? d) (zrange a0 (a0 + c))))
  <= parallel_read_count L c.
Proof. intros L a0 c d HL Ha Hc. apply legal_valid in HL. apply parallel_read_bound; assumption. Qed.

Example C53_ex : Z.of_nat (length (filter (fun a => l_disk (id2loc (Layout 7 4 2) (Data a)) =? 6)
    (zrange 10 (10 + 15)))) = 3 /\ parallel_read_count (Layout 7 4 2) 15 = 4.
Proof. vm_compute. auto. Qed.

(** ** C54: every disk stores its chunks in increasing order *)

Theorem C54_rows_follow_chunk_order : forall L x y,
  legal L -> chunk_exists L x -> chunk_exists L y ->
  chunk_number L x < chunk_number L y ->
  l_disk (id2loc L x) = l_disk (id2loc L y) ->
  l_offset (id2loc L x) < l_offset (id2loc L y).
Proof.
  intros L x y HL Hx Hy.
  destruct (coord_ex L x HL Hx) as (c & Hc & <-). destruct (coord_ex L y HL Hy) as (c' & Hc' & <-).
  rewrite !chunk_number_pos by assumption. intros Hlt Hd. apply legal_valid in HL.
  apply offset_mono; try assumption. apply (pos_lt L); assumption.
Qed.

Example C54_ex : l_disk (id2loc (Layout 7 4 2) (Data 4)) = l_disk (id2loc (Layout 7 4 2) (Parity 8 1))
  /\ l_offset (id2loc (Layout 7 4 2) (Data 4)) = 1 /\ l_offset (id2loc (Layout 7 4 2) (Parity 8 1)) = 2.
Proof. vm_compute. auto. Qed.

(** ** The constructor's primality test (part of C05's premise) *)
Theorem C05_primality_test : forall n, exists b, is_prime n = Some b /\ (b = true <-> prime n).
Proof. exact is_prime_spec. Qed.

Print Assumptions C01_layout_invertible.
Print Assumptions C01_layout_injective.
Print Assumptions C02_stripe_on_distinct_disks.
Print Assumptions C03_layout_is_dense.
Print Assumptions C03_repetition_fills_its_rows.
Print Assumptions C04_iterator_agrees.
Print Assumptions C04_numbering.
Print Assumptions C05_constructor_accepts_only_legal.
Print Assumptions C05_no_overflow_partial.
Print Assumptions C05_debug_partial.
Print Assumptions C05_no_overflow_refuted.
Print Assumptions C05_debug_refuted.
Print Assumptions C05_primality_test.
Print Assumptions C53_parallel_read_count.
Print Assumptions C54_rows_follow_chunk_order.
