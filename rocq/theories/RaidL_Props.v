(** What the RAID vdev's long reads offer: the versions of some data that can be made from the disks, for a caller whose checksum failed on what an ordinary
    read returned (vdev_raid.rs:1250-1505, 2235-2256). *)
From Verif Require Import Common FSM_Model PrimeS_Model PrimeS_Proofs2 PrimeS_Props Codec_Model Codec_GF Codec_Props Raid_Model Raid_Recon Raid_World Raid_One Raid_Multi Raid_Props RaidL_Model RaidL_Proofs.
Local Opaque id2loc nth_chunk.

(** * Vocabulary *)
(** the disks that are not [bad] have the chunks of the range's stripes, and reading them succeeds.  A bad disk may fail a read, or return anything. *)
Definition reliable (L : layout) (cs B : Z) (V : Z -> Z) (dk : Z -> Z -> Z) (ok : Z -> Z -> bool) (lba elba : Z) (bad : list Z) : Prop :=
  forall x, chunk_exists L x -> touches L cs lba elba (stripe_of L x) -> ~ In (l_disk (id2loc L x)) bad ->
  on_disk L cs B V dk x /\ forall l, ok (l_disk (id2loc L x)) l = true.
(** the bytes of the range *)
Definition truth (B : Z) (V : Z -> Z) (lba elba : Z) : list Z := map V (zrange (lba * B) (elba * B)).
(** the bytes of the range are one of the versions offered *)
Definition offers (r : option (list (option (list Z)))) (b : list Z) : Prop := exists l, r = Some l /\ In (Some b) l.
(** no version panics, and all have the right size *)
Definition well_formed (r : option (list (option (list Z)))) (len : Z) : Prop := exists l, r = Some l /\ Forall (fun c => exists b, c = Some b /\ zlen b = len) l.
(** disk [d] has a chunk of the range's stripes *)
Definition in_use (L : layout) (cs lba elba d : Z) : Prop := exists x, chunk_exists L x /\ touches L cs lba elba (stripe_of L x) /\ l_disk (id2loc L x) = d.
(** none of the disks has parity of the range's stripes *)
Definition no_parity (L : layout) (cs lba elba : Z) (bad : list Z) : Prop :=
  forall s p, chunk_exists L (Parity s p) -> touches L cs lba elba (stripe_of L (Parity s p)) -> ~ In (l_disk (id2loc L (Parity s p))) bad.

(** * Linking the vocabulary to the proofs *)
Section Link.
Context (L : layout) (cs B lba elba : Z) (S : sane L cs B lba elba) (V : Z -> Z) (HV : bytes V) (dk : Z -> Z -> Z) (ok : Z -> Z -> bool) (junk : Z -> Z -> Z) (bad : list Z).
Notation m := (dm L).
Notation k := (lk L).
Notation C := (col_len cs B).
Let HL : legal L := proj1 S.
Let H256 : k <= 256 := proj1 (proj2 S).
Let Hcs : 0 < cs := proj1 (proj2 (proj2 S)).
Let HB : 0 < B := proj1 (proj2 (proj2 (proj2 S))).
Let Hr : 0 <= lba < elba := proj2 (proj2 (proj2 (proj2 S))).
Let Hf := legal_fk L HL.
Let MP := m_range L HL.
Lemma touched t : lba / (cs * m) <= t <= (elba - 1) / (cs * m) <-> touches L cs lba elba t.
Proof. rewrite (touches_iff L cs B lba elba S dk ok t). now rewrite (Z.mul_comm cs m). Qed.
Lemma long_cases faulted : 0 <= faulted < lf L ->
  (lba / (cs * m) = (lba + (elba - lba) - 1) / (cs * m) /\ one_stripe L cs lba elba /\ read_long L cs B dk ok junk faulted (elba - lba) lba = Some (read_long_one L cs B dk ok junk (elba - lba) lba)) \/
  (~ one_stripe L cs lba elba /\ read_long L cs B dk ok junk faulted (elba - lba) lba = Some (read_long_multi L cs B dk ok junk (elba - lba) lba)).
Proof.
  intros HF. unfold read_long. rewrite (proj2 (Z.leb_gt _ _)) by lia. replace (lba + (elba - lba) - 1) with (elba - 1) by lia. destruct (Z.eqb_spec (lba / (cs * m)) ((elba - 1) / (cs * m))) as [E|E].
  - left. split; [exact E|]. split; [|reflexivity]. intros t u Ht Hu. apply touched in Ht, Hu. lia.
  - right. split; [|reflexivity]. intros O. apply (one_stripe_eq L cs B lba elba S) in O. rewrite (Z.mul_comm m cs) in O. contradiction.
Qed.
Context (R : reliable L cs B V dk ok lba elba bad).
Lemma reliable_col t i : lba / (cs * m) <= t <= (elba - 1) / (cs * m) -> 0 <= i < k -> ~ In (pd L t i) bad ->
  map (fun j => dk (pd L t i) (po L t i * C + j)) (zrange 0 C) = scol L cs B V t i /\ forall l, ok (pd L t i) l = true.
Proof.
  intros Ht Hi Hb. assert (WP : 0 < cs * m) by nia. assert (T0 : 0 <= t) by (assert (0 <= lba / (cs * m)) by (apply Z.div_pos; lia); lia). destruct (stripe_chunk L t i HL T0 Hi) as [E1 E2]. destruct (R (pchunk L t i) E1) as [R1 R2]; [rewrite E2; now apply touched|exact Hb|]. split; [|exact R2]. now apply (on_disk_stored L cs B lba elba S V HV dk ok t i).
Qed.
Lemma offered_one : lba / (cs * m) = (lba + (elba - lba) - 1) / (cs * m) -> zlen bad <= lf L -> In (Some (truth B V lba elba)) (read_long_one L cs B dk ok junk (elba - lba) lba).
Proof.
  intros E HA. assert (WP : 0 < cs * m) by nia. assert (T0 : 0 <= lba / (cs * m)) by (apply Z.div_pos; lia).
  assert (ET : truth B V lba elba = map V (zrange (lba * B) ((lba + (elba - lba)) * B))) by (unfold truth; do 2 f_equal; ring). rewrite ET.
  apply (cand_true L cs B HL HB Hcs H256 dk ok junk lba (elba - lba) ltac:(lia) ltac:(lia) E V HV (fun i => member (pd L (lba / (cs * m)) i) bad)).
  - pose proof (bad_count L bad (lba / (cs * m)) k HL T0 ltac:(lia)) as X. unfold tally. unfold zlen in *. unfold member. lia.
  - intros i Hi Hm. replace (lba + (elba - lba) - 1) with (elba - 1) in E by lia. destruct (reliable_col (lba / (cs * m)) i) as [X Y]; [lia|exact Hi|intros H; apply member_in in H; congruence|]. split; [apply Y|]. unfold gcol, child_read. rewrite <- X. apply map_ext. intros j. rewrite Y. f_equal. unfold col_len. ring.
Qed.
Lemma offered_multi : zlen bad <= lf L -> no_parity L cs lba elba bad \/ lf L = 1 ->
  (forall d l, ok d l = true) \/ (forall d, 0 <= d < ln L -> in_use L cs lba elba d) ->
  In (Some (truth B V lba elba)) (read_long_multi L cs B dk ok junk (elba - lba) lba).
Proof.
  intros HA HP HO. assert (WP : 0 < cs * m) by nia. assert (T0 : 0 <= lba / (cs * m)) by (apply Z.div_pos; lia). pose proof (fun t i j => pd_inj L t i j HL) as PI.
  assert (ET : truth B V lba elba = map V (zrange (lba * B) ((lba + (elba - lba)) * B))) by (unfold truth; do 2 f_equal; ring). rewrite ET.
  rewrite (long_multi_eq L cs B HL HB Hcs H256 (fun t i j => pd_inj L t i j HL) dk ok junk lba (elba - lba) ltac:(lia) ltac:(lia)).
  assert (LEN : lk L <= ln L) by (pose proof HL as (_ & ? & _); lia).
  destruct (extend_to (fun d => member d bad) (zrange 0 (ln L)) (Z.to_nat (lf L)) (NoDup_zrange _ _)) as (q & Q1 & Q2).
  { rewrite zrange_length. pose proof (member_tally bad (fun d => d) (ln L) ltac:(auto)) as X. unfold zlen in HA. lia. }
  set (E := filter q (zrange 0 (ln L))). assert (LE : length E = Z.to_nat (lf L)) by exact Q2.
  assert (INB : forall t i, 0 <= t -> 0 <= i < k -> ~ In (pd L t i) E -> ~ In (pd L t i) bad).
  { intros t i Ht Hi H Hb. apply H. pose proof (pdN_range L HL (t * k + i) ltac:(nia)) as PR. apply filter_In. split; [apply in_zrange; exact PR|]. apply Q1; [apply in_zrange; exact PR|now apply member_in]. }
  assert (EE : lba + (elba - lba) - 1 = elba - 1) by lia.
  apply in_map_iff. exists E. split.
  - apply (mcand_true L cs B HL HB Hcs H256 PI dk ok junk lba (elba - lba) ltac:(lia) ltac:(lia) V HV E LE). intros t i Ht Hi. rewrite EE in Ht. assert (Ht0 : 0 <= t) by lia.
    assert (Hd : 0 <= i < k /\ ~ In (pd L t i) bad).
    { destruct (er_surv L HL PI dk ok junk (elba - lba) E t i Hi) as [[I1 I2]|[I1 I2]].
      - split; [lia|]. apply INB; [exact Ht0|lia|]. intros H. apply member_in in H. congruence.
      - split; [lia|]. destruct HP as [HP|H1].
        + destruct (stripe_chunk L t i HL Ht0 ltac:(lia)) as [E1 E2]. unfold pd. rewrite pchunk_eq in * by lia. rewrite (proj2 (Z.ltb_ge i m)) in * by lia. apply HP; [exact E1|]. rewrite E2. now apply touched.
        + apply INB; [exact Ht0|lia|]. destruct (er_none L HL E t) as [N|(j & J1 & J2)]; [rewrite N in I2; lia|]. intros Hin. clearbody E. destruct E as [|d [|d' E']]; cbn [length] in LE; [destruct Hin| |lia]. destruct Hin as [Hin|[]], J2 as [J2|[]]. assert (j = i) by (apply (PI t); [lia|lia|lia|congruence]). lia. }
    destruct Hd as [Hi' Hb]. destruct (reliable_col t i Ht Hi' Hb) as [X Y]. unfold mcol. rewrite <- X. apply map_ext. intros j. now rewrite Y.
  - apply filter_In. split; [unfold E; rewrite <- Q2; apply combos_in|]. apply forallb_forall. intros i Hi. destruct HO as [HO|HO].
    + rewrite (mfails_none L cs HL Hcs H256 PI dk ok junk lba (elba - lba)) in Hi; [destruct Hi|lia|lia|auto].
    + destruct (mfails_all L cs HL Hcs H256 PI dk ok junk lba (elba - lba) ltac:(lia) ltac:(lia)) with (i := i) as [I1 I2]; [|exact Hi|].
      * intros d Hd. apply (cntd_used L cs HL Hcs H256 PI dk ok junk lba (elba - lba) ltac:(lia) ltac:(lia) d (proj1 Hd)). destruct (HO d Hd) as (x & X1 & X2 & X3). destruct (proj2 (C04_numbering L HL) x X1) as [N1 N2]. exists (stripe_of L x), (chunk_number L x mod k). rewrite EE. split; [now apply touched|]. split; [apply Z.mod_pos_bound; lia|]. unfold pd, pchunk, stripe_of. pose proof (Z.div_mod (chunk_number L x) k ltac:(lia)) as DM. replace (chunk_number L x / k * k + chunk_number L x mod k) with (chunk_number L x) by lia. now rewrite N2.
      * apply member_filter. split; [now apply in_zrange|]. apply Q1; [now apply in_zrange|]. apply member_in. destruct (in_dec Z.eq_dec i bad) as [|NI]; [assumption|exfalso]. destruct (HO i I1) as (x & X1 & X2 & X3). destruct (R x X1 X2) as [_ R2]; [now rewrite X3|]. rewrite <- X3, R2 in I2. discriminate.
Qed.
End Link.

(** * The theorems *)
(** Whatever is on the disks and whichever reads fail, a long read yields buffers of the size asked for, and never panics. *)
Theorem C75_long_read_never_panics : forall L cs B dk ok junk faulted lba elba,
  sane L cs B lba elba -> 0 <= faulted < lf L -> well_formed (read_long L cs B dk ok junk faulted (elba - lba) lba) ((elba - lba) * B).
Proof.
  intros L cs B dk ok junk faulted lba elba S HF. pose proof S as (HL & H256 & Hcs & HB & Hr). destruct (long_cases L cs B lba elba S dk ok junk faulted HF) as [(E & _ & ->)|(_ & ->)].
  - eexists. split; [reflexivity|]. rewrite (long_one_eq L cs B HL Hcs H256 dk ok junk lba (elba - lba) ltac:(lia)). apply Forall_map, Forall_forall. intros it Hit. apply filter_In in Hit. apply (cand_total L cs B HL HB Hcs H256 dk ok junk lba (elba - lba) ltac:(lia) E). apply Hit.
  - eexists. split; [reflexivity|]. rewrite (long_multi_eq L cs B HL HB Hcs H256 (fun t i j => pd_inj L t i j HL) dk ok junk lba (elba - lba) ltac:(lia) ltac:(lia)). apply Forall_map, Forall_forall. intros it Hit. apply filter_In in Hit. apply (mcand_total L cs B HL HB Hcs H256 (fun t i j => pd_inj L t i j HL) dk ok junk lba (elba - lba) ltac:(lia) ltac:(lia)). destruct (combos_len _ _ _ (proj1 Hit)) as [X _]. exact X.
Qed.
(** Within one stripe the data is among the versions if no more disks are bad than the array has parity for: whether they fail or lie. *)
Theorem C75_offered_within_a_stripe : forall L cs B V dk ok junk faulted lba elba bad,
  sane L cs B lba elba -> bytes V -> 0 <= faulted < lf L -> one_stripe L cs lba elba -> zlen bad <= lf L -> reliable L cs B V dk ok lba elba bad ->
  offers (read_long L cs B dk ok junk faulted (elba - lba) lba) (truth B V lba elba).
Proof.
  intros L cs B V dk ok junk faulted lba elba bad S HV HF O HA R. destruct (long_cases L cs B lba elba S dk ok junk faulted HF) as [(E & _ & ->)|(N & _)]; [|contradiction]. eexists. split; [reflexivity|]. now apply (offered_one L cs B lba elba S V HV dk ok junk bad R).
Qed.
(** Across stripes that holds if the bad disks have none of the range's parity, or there is just one parity chunk to a stripe; and if no read fails, or
    every disk has a part of the range.  The refutations below show that this is needed. *)
Theorem C75_offered_across_stripes_partial : forall L cs B V dk ok junk faulted lba elba bad,
  sane L cs B lba elba -> bytes V -> 0 <= faulted < lf L -> zlen bad <= lf L -> reliable L cs B V dk ok lba elba bad ->
  no_parity L cs lba elba bad \/ lf L = 1 ->
  (forall d l, ok d l = true) \/ (forall d, 0 <= d < ln L -> in_use L cs lba elba d) ->
  offers (read_long L cs B dk ok junk faulted (elba - lba) lba) (truth B V lba elba).
Proof.
  intros L cs B V dk ok junk faulted lba elba bad S HV HF HA R HP HO. destruct (long_cases L cs B lba elba S dk ok junk faulted HF) as [(E & _ & ->)|(_ & ->)]; (eexists; split; [reflexivity|]).
  - now apply (offered_one L cs B lba elba S V HV dk ok junk bad R).
  - now apply (offered_multi L cs B lba elba S V HV dk ok junk bad R).
Qed.

(** * Examples and refutations *)
(** the disks of an array with contents [exV], of which those in [bad] have every byte wrong *)
Definition lying (L : layout) (bad : list Z) (d o : Z) : Z := if existsb (Z.eqb d) bad then (ideal L 1 1 exV d o + 1) mod 256 else ideal L 1 1 exV d o.
Lemma lying_reliable L bad lba elba : legal L -> reliable L 1 1 exV (lying L bad) (fun _ _ => true) lba elba bad.
Proof.
  intros HL x Hx _ Hb. split; [|reflexivity]. intros j Hj. unfold lying. destruct (existsb (Z.eqb (l_disk (id2loc L x))) bad) eqn:E.
  - exfalso. apply Hb. apply existsb_exists in E. destruct E as (y & Hy & Ey). apply Z.eqb_eq in Ey. now rewrite Ey.
  - exact (ideal_on_disk L 1 1 exV x HL ltac:(lia) ltac:(lia) Hx j Hj).
Qed.
Lemma failing_reliable L bad lba elba : legal L -> reliable L 1 1 exV (ideal L 1 1 exV) (except bad) lba elba bad.
Proof.
  intros HL x Hx _ Hb. split; [now apply ideal_on_disk|]. intros l. unfold except. apply negb_true_iff. destruct (existsb (Z.eqb (l_disk (id2loc L x))) bad) eqn:E; [|reflexivity]. exfalso. apply Hb. apply existsb_exists in E. destruct E as (y & Hy & Ey). apply Z.eqb_eq in Ey. now rewrite Ey.
Qed.
Definition same (a b : list Z) : bool := (zlen a =? zlen b) && forallb (fun xy => fst xy =? snd xy) (combine a b).
Lemma same_refl a : same a a = true.
Proof. unfold same. rewrite Z.eqb_refl. cbn [andb]. induction a as [|x a IH]; [reflexivity|]. cbn [combine forallb fst snd]. now rewrite Z.eqb_refl. Qed.
Lemma not_offered r b : match r with Some l => existsb (fun c => match c with Some x => same x b | None => false end) l = false | None => True end -> ~ offers r b.
Proof.
  intros H (l & -> & Hin). assert (X : existsb (fun c => match c with Some x => same x b | None => false end) l = true) by (apply existsb_exists; exists (Some b); split; [exact Hin|apply same_refl]). congruence.
Qed.
Lemma prime_legal n k f : is_prime n = Some true -> 1 < k <= n -> 0 < f < k -> legal (Layout n k f).
Proof. intros H Hk Hf. split; [|auto]. destruct (PrimeS_Proofs2.is_prime_spec n) as (b & Hb & Hp). rewrite H in Hb. injection Hb as <-. now apply Hp. Qed.
Ltac small_sane := split; [apply prime_legal; [vm_compute; reflexivity|cbn; lia|cbn; lia]|]; cbn; lia.
Ltac not_one a b := let O := fresh in intros O; match type of O with one_stripe ?L ?cs _ _ => assert (X : a / ((lk L - lf L) * cs) = b / ((lk L - lf L) * cs)) by (apply O; [exists a|exists b]; (split; [lia|reflexivity])); vm_compute in X; discriminate end.

(** five disks, stripes of four chunks, two of them parity; two disks lie about stripe 1: the data is offered *)
Example C75_ex_lies : sane exL 1 1 2 4 /\ one_stripe exL 1 2 4 /\ zlen [1; 2] <= lf exL /\ reliable exL 1 1 exV (lying exL [1; 2]) (fun _ _ => true) 2 4 [1; 2] /\
  map (fun c => match c with Some b => same b (truth 1 exV 2 4) | None => false end) (read_long_one exL 1 1 (lying exL [1; 2]) (fun _ _ => true) (fun _ _ => 0) 2 2) <> [] /\
  existsb (fun c => match c with Some b => same b (truth 1 exV 2 4) | None => false end) (read_long_one exL 1 1 (lying exL [1; 2]) (fun _ _ => true) (fun _ _ => 0) 2 2) = true.
Proof.
  assert (S : sane exL 1 1 2 4) by small_sane. split; [exact S|]. split.
  - intros t u (x & Hx & ->) (y & Hy & ->). cbn [lk lf exL]. assert (X : x / ((4 - 2) * 1) = 1) by (symmetry; apply (Z.div_unique _ _ _ (x - 2)); lia). assert (Y : y / ((4 - 2) * 1) = 1) by (symmetry; apply (Z.div_unique _ _ _ (y - 2)); lia). congruence.
  - split; [vm_compute; discriminate|]. split; [apply lying_reliable, S|]. split; [vm_compute; discriminate|vm_compute; reflexivity].
Qed.
(** three disks with single parity: one that lies, or one that fails, across four stripes *)
Definition exM : layout := Layout 3 3 1.
Example C75_ex_across : sane exM 1 1 0 8 /\ ~ one_stripe exM 1 0 8 /\ lf exM = 1 /\ reliable exM 1 1 exV (lying exM [1]) (fun _ _ => true) 0 8 [1] /\
  reliable exM 1 1 exV (ideal exM 1 1 exV) (except [1]) 0 8 [1] /\ (forall d, 0 <= d < ln exM -> in_use exM 1 0 8 d) /\
  existsb (fun c => match c with Some b => same b (truth 1 exV 0 8) | None => false end) (read_long_multi exM 1 1 (lying exM [1]) (fun _ _ => true) (fun _ _ => 0) 8 0) = true.
Proof.
  assert (S : sane exM 1 1 0 8) by small_sane. split; [exact S|]. split; [not_one 0 7|]. split; [reflexivity|]. split; [apply lying_reliable, S|]. split; [apply failing_reliable, S|]. split; [|vm_compute; reflexivity].
  intros d Hd. cbn [ln exM] in Hd. assert (D : d = l_disk (id2loc exM (Data 0)) \/ d = l_disk (id2loc exM (Data 1)) \/ d = l_disk (id2loc exM (Parity 0 0))) by (vm_compute (l_disk _); vm_compute (l_disk (id2loc exM (Data 1))); vm_compute (l_disk (id2loc exM (Parity 0 0))); lia).
  assert (TT : touches exM 1 0 8 0) by (exists 0; split; [lia|reflexivity]).
  destruct D as [D|[D|D]]; [exists (Data 0)|exists (Data 1)|exists (Parity 0 0)]; (split; [|split; [exact TT|symmetry; exact D]]); cbn; [lia|lia|]. split; [lia|]. split; [exists 0; lia|lia].
Qed.

(** What one would hope for - that the data is offered whenever no more disks are bad than there is parity for - does not hold across stripes.
    With double parity a single disk that lies is too much, as its parity chunks are used though the disk is assumed bad: *)
Theorem C75_one_lying_disk_refuted : exists L dk lba elba d,
  sane L 1 1 lba elba /\ lf L = 2 /\ reliable L 1 1 exV dk (fun _ _ => true) lba elba [d] /\
  ~ offers (read_long L 1 1 dk (fun _ _ => true) (fun _ _ => 0) 0 (elba - lba) lba) (truth 1 exV lba elba).
Proof.
  exists (Layout 3 3 2), (lying (Layout 3 3 2) [0]), 0, 6, 0. assert (S : sane (Layout 3 3 2) 1 1 0 6) by small_sane. split; [exact S|]. split; [reflexivity|]. split; [apply lying_reliable, S|]. apply not_offered. vm_compute. reflexivity.
Qed.
(** with single parity a disk that fails to be read is too much if not every disk has a part of the range, as the position among the disks that were
    read is taken for the number of the disk: *)
Theorem C75_one_failing_disk_refuted : exists L lba elba d,
  sane L 1 1 lba elba /\ lf L = 1 /\ reliable L 1 1 exV (ideal L 1 1 exV) (except [d]) lba elba [d] /\
  ~ offers (read_long L 1 1 (ideal L 1 1 exV) (except [d]) (fun _ _ => 0) 0 (elba - lba) lba) (truth 1 exV lba elba).
Proof.
  exists (Layout 7 3 1), 2, 6, 5. assert (S : sane (Layout 7 3 1) 1 1 2 6) by small_sane. split; [exact S|]. split; [reflexivity|]. split; [apply failing_reliable, S|]. apply not_offered. vm_compute. reflexivity.
Qed.
(** and two lying disks are too much for two stripes with double parity, in the layout that is used. *)
Theorem C75_two_lying_disks_refuted : exists dk lba elba d e,
  sane exL 1 1 lba elba /\ lf exL = 2 /\ reliable exL 1 1 exV dk (fun _ _ => true) lba elba [d; e] /\
  ~ offers (read_long exL 1 1 dk (fun _ _ => true) (fun _ _ => 0) 0 (elba - lba) lba) (truth 1 exV lba elba).
Proof.
  exists (lying exL [0; 2]), 0, 4, 0, 2. assert (S : sane exL 1 1 0 4) by small_sane. split; [exact S|]. split; [reflexivity|]. split; [apply lying_reliable, S|]. apply not_offered. vm_compute. reflexivity.
Qed.
(** a disk without parity in the range: disk 3 in the first two stripes *)
Example C75_ex_no_parity : exists d, no_parity exL 1 0 4 [d] /\ in_use exL 1 0 4 d.
Proof.
  pose (par := map (fun sp => l_disk (id2loc exL (Parity (fst sp) (snd sp)))) [(0, 0); (0, 1); (2, 0); (2, 1)]).
  pose (dat := map (fun a => l_disk (id2loc exL (Data a))) [0; 1; 2; 3]).
  assert (X : exists d, existsb (Z.eqb d) par = false /\ existsb (Z.eqb d) dat = true) by (vm_compute; first [exists 0; now split|exists 1; now split|exists 2; now split|exists 3; now split|exists 4; now split]).
  destruct X as (d & X1 & X2). exists d. split.
  - intros s p Hx (a & Ha & Et) [Hd|[]]. cbn in Hx. unfold stripe_of in Et. cbn [chunk_number] in Et. cbn [lk lf exL] in *. assert (Ex : existsb (Z.eqb d) par = true); [|congruence]. apply existsb_exists. exists d. split; [|apply Z.eqb_refl]. rewrite Hd. apply in_map_iff. exists (s, p). split; [reflexivity|].
    destruct Hx as (Hs & (t & ->) & Hp). cbn [lk lf exL] in *. rewrite Z.div_mul in Et by lia. assert (ET : (t * 4 + (4 - 2) + p) / 4 = t) by (symmetry; apply (Z.div_unique _ _ _ (2 + p)); lia). rewrite ET in Et.
    assert (A2 : 0 <= a / ((4 - 2) * 1) < 2) by (split; [apply Z.div_pos; lia|apply Z.div_lt_upper_bound; lia]). assert (TT : (t = 0 \/ t = 1) /\ (p = 0 \/ p = 1)) by lia. destruct TT as [[->| ->] [->| ->]]; cbn; tauto.
  - apply existsb_exists in X2. destruct X2 as (d' & Hd & E). apply Z.eqb_eq in E. subst d'. apply in_map_iff in Hd. destruct Hd as (a & Ea & Ha). exists (Data a). assert (HA : 0 <= a < 4) by (cbn in Ha; intuition lia). split; [exact (proj1 HA)|]. split; [|exact Ea]. exists a. split; [exact HA|]. unfold stripe_of, chunk_number. cbn [lk lf exL]. change ((4 - 2) * 1) with 2. change (4 - 2) with 2. symmetry. apply (Z.div_unique _ _ _ (a mod 2)); [pose proof (Z.mod_pos_bound a 2); lia|ring].
Qed.
Print Assumptions C75_long_read_never_panics.
Print Assumptions C75_offered_within_a_stripe.
Print Assumptions C75_offered_across_stripes_partial.
Print Assumptions C75_one_lying_disk_refuted.
Print Assumptions C75_one_failing_disk_refuted.
Print Assumptions C75_two_lying_disks_refuted.
