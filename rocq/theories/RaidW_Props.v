(** What the RAID vdev's writes leave on the disks, and what can be read back.
    vdev_raid.rs: write_at 2405-2463 (the part that goes to the disks), write_at_one 1801-1855, writev_at_one 1862-1923, write_at_multi 1698-1798. *)
From Verif Require Import Common SG_Model SB_Model SB_Props FSM_Model PrimeS_Model PrimeS_Proofs2 PrimeS_Props Codec_Model Codec_GF Codec_Props Raid_Model Raid_Recon Raid_World Raid_One Raid_Multi RaidW_Model RaidW_Proofs Raid_Props.

(** * Vocabulary *)
(** the contents after [buf] has been written at [lba] *)
Definition overwrite (B : Z) (V : Z -> Z) (lba : Z) (buf : list Z) (x : Z) : Z :=
  if (lba * B <=? x) && (x <? lba * B + zlen buf) then nth (Z.to_nat (x - lba * B)) buf 0 else V x.
(** [buf] is [n] whole stripes, and [lba] is where a stripe starts *)
Definition stripes (L : layout) (cs B : Z) (buf : list Z) (lba n : Z) : Prop :=
  0 <= n /\ 0 <= lba /\ lba mod ((lk L - lf L) * cs) = 0 /\ zlen buf = n * ((lk L - lf L) * cs * B).
Definition sound (L : layout) (cs B : Z) : Prop := legal L /\ lk L <= 256 /\ 0 < cs /\ 0 < B.
(** the chunk's stripe is among the [n] from [lba] on *)
Definition among (L : layout) (cs lba n : Z) (x : chunkid) : Prop := touches L cs lba (lba + n * ((lk L - lf L) * cs)) (stripe_of L x).

Local Opaque id2loc nth_chunk.
(** * Linking *)
Section Link.
Context (L : layout) (cs B : Z) (HL : legal L) (HB : 0 < B) (Hcs : 0 < cs).
Notation m := (dm L).
Notation k := (lk L).
Notation C := (col_len cs B).
Lemma among_iff s n x : 0 <= s -> 0 <= n -> chunk_exists L x -> (among L cs (s * (m * cs)) n x <-> s * k <= chunk_number L x < (s + n) * k).
Proof.
  intros Hs Hn Hx. pose proof (legal_fk L HL) as Hf. pose proof (m_range L HL) as MP. assert (W : 0 < m * cs) by nia. unfold among, touches. fold (dm L). unfold stripe_of.
  set (p := chunk_number L x). pose proof (Z.div_mod p k ltac:(lia)) as D1. pose proof (Z.mod_pos_bound p k ltac:(lia)) as D2. split.
  - intros (a & Ha & E). assert (s <= a / (m * cs) < s + n); [|rewrite <- E in *; clear - D1 D2 H; nia]. split; [apply Z.div_le_lower_bound; lia|apply Z.div_lt_upper_bound; lia].
  - intros H. exists (p / k * (m * cs)). rewrite Z.div_mul by lia. split; [|reflexivity]. assert (s <= p / k < s + n) by (clear - D1 D2 H; split; nia). nia.
Qed.
Lemma content_ext V V' t i : 0 <= i < k -> (forall y, t * (m * C) <= y < (t + 1) * (m * C) -> V y = V' y) -> content L cs B V (pchunk L t i) = content L cs B V' (pchunk L t i).
Proof.
  intros Hi E. pose proof (legal_fk L HL) as Hf. pose proof (m_range L HL) as MP. assert (CP : 0 < C) by (unfold col_len; nia).
  assert (D : forall j, 0 <= j < m -> dcol cs B V (t * m + j) = dcol cs B V' (t * m + j)).
  { intros j Hj. unfold dcol. apply map_ext_in. intros y Hy. apply in_zrange in Hy. apply E. nia. }
  rewrite pchunk_eq by assumption. destruct (Z.ltb_spec i m); cbn [content]; [apply D; lia|]. do 2 f_equal. apply map_ext_in. intros j Hj. apply in_zrange in Hj. now apply D.
Qed.
Lemma chunk_pos x : chunk_exists L x -> 0 <= stripe_of L x /\ exists i, 0 <= i < k /\ x = pchunk L (stripe_of L x) i /\ chunk_number L x = stripe_of L x * k + i.
Proof.
  intros Hx. pose proof (legal_fk L HL) as Hf. destruct (proj2 (C04_numbering L HL) x Hx) as [P E]. unfold stripe_of. pose proof (Z.div_mod (chunk_number L x) k ltac:(lia)) as D1. pose proof (Z.mod_pos_bound (chunk_number L x) k ltac:(lia)) as D2.
  split; [apply Z.div_pos; lia|]. exists (chunk_number L x mod k). split; [exact D2|]. assert (EQ : chunk_number L x / k * k + chunk_number L x mod k = chunk_number L x) by lia. split; [|lia]. unfold pchunk. rewrite EQ. now symmetry.
Qed.
(** a chunk's contents depend only on its stripe's bytes *)
Lemma content_stripe V V' x : chunk_exists L x -> (forall y, stripe_of L x * (m * C) <= y < (stripe_of L x + 1) * (m * C) -> V y = V' y) -> content L cs B V x = content L cs B V' x.
Proof. intros Hx E. destruct (chunk_pos x Hx) as (_ & i & Hi & EX & _). rewrite EX. now apply content_ext. Qed.
Lemma buf_overwrite V lba buf : map (overwrite B V lba buf) (zrange (lba * B) (lba * B + zlen buf)) = buf.
Proof.
  apply (nth_ext _ _ 0 0); rewrite map_length, zrange_length; [unfold zlen; lia|]. intros i Hi.
  rewrite (nth_indep _ 0 (overwrite B V lba buf 0)) by (rewrite map_length, zrange_length; lia). rewrite map_nth. rewrite nth_zrange by lia. unfold overwrite.
  rewrite (proj2 (Z.leb_le _ _)), (proj2 (Z.ltb_lt _ _)) by lia. cbn [andb]. f_equal. lia.
Qed.
Lemma multi_nothing wok wjunk dk lba : 0 <= lba -> lba mod (m * cs) = 0 -> write_at_multi L cs B wok wjunk dk [] lba = Some (dk, true).
Proof.
  intros H0 Hl. pose proof (legal_fk L HL) as Hf. pose proof (m_range L HL) as MP. unfold write_at_multi. cbv zeta. change (zlen (@nil Z)) with 0. rewrite (Z.div_0_l B) by lia. rewrite Z.add_0_r.
  assert (E : chunk_iter L (Data (lba / cs)) (Data (lba / cs)) = []).
  { pose proof (Z.div_mod lba (m * cs) ltac:(nia)) as D. rewrite Hl, Z.add_0_r in D. replace (lba / cs) with (lba / (m * cs) * m + 0).
    - assert (CE : chunk_exists L (Data (lba / (m * cs) * m + 0))) by (cbn; pose proof (Z.div_pos lba (m * cs)); nia). rewrite chunk_iter_eq; try assumption; try lia. rewrite zrange_empty by lia. reflexivity.
    - rewrite D at 2. replace (m * cs * (lba / (m * cs))) with (lba / (m * cs) * m * cs) by ring. rewrite Z.div_mul by lia. lia. }
  rewrite E. cbn [ofold obind]. unfold write_disks. cbn [w_start].
  assert (F : forall l acc, fold_left (fun (acc : disks * list bool) (_ : Z) => acc) l acc = acc) by (induction l; auto).
  rewrite F. cbn [fst snd]. unfold verdict. cbn [filter]. change (zlen (@nil bool)) with 0. rewrite (proj2 (Z.ltb_ge _ _)) by lia. reflexivity.
Qed.
End Link.

(** * C73: what a write leaves on the disks *)
(** Writing whole stripes never panics.  It reports an error only if more disks failed than there is parity for; each disk that did
    not fail then holds its chunks of the stripes written, data and parity, and nothing else has changed on any disk. *)
Theorem C73_write_stores_stripes : forall L cs B V dk wok wjunk buf lba n,
  sound L cs B -> stripes L cs B buf lba n ->
  exists dk' failed, write_stripes L cs B wok wjunk dk buf lba = Some (dk', zlen failed <=? lf L) /\
    NoDup failed /\ (forall d, In d failed -> exists l, wok d l = false) /\
    (forall x, chunk_exists L x -> among L cs lba n x -> ~ In (l_disk (id2loc L x)) failed -> on_disk L cs B (overwrite B V lba buf) dk' x) /\
    (forall d o, (forall x, chunk_exists L x -> among L cs lba n x -> id2loc L x <> Loc d (o / (cs * B))) -> dk' d o = dk d o).
Proof.
  intros L cs B V dk wok wjunk buf lba n (HL & H256 & Hcs & HB) (Hn & Hl & Hm & Hz). fold (dm L) in *. pose proof (legal_fk L HL) as Hf. pose proof (m_range L HL) as MP.
  assert (W : 0 < dm L * cs) by nia. pose proof (Z.div_mod lba (dm L * cs) ltac:(lia)) as D. rewrite Hm, Z.add_0_r in D. set (s := lba / (dm L * cs)) in *. assert (Hs : 0 <= s) by (apply Z.div_pos; lia).
  assert (EL : lba = s * (dm L * cs)) by (rewrite D; ring). assert (CP : 0 < cs * B) by nia.
  assert (N0 : n = 0 \/ 0 < n) by lia. destruct N0 as [->|Hn0].
  - assert (buf = []) by (destruct buf as [|b buf]; [reflexivity|rewrite zlen_cons in Hz; pose proof (zlen_nonneg buf); lia]). subst buf. exists dk, []. split; [|split; [constructor|split; [contradiction|split; [|reflexivity]]]].
    + unfold write_stripes. change (zlen (@nil Z)) with 0. rewrite Z.div_0_l by (unfold col_len; nia). cbn [Z.eqb]. rewrite multi_nothing by assumption. change (zlen (@nil Z)) with 0. rewrite (proj2 (Z.leb_le _ _)) by lia. reflexivity.
    + intros x Hx HA. exfalso. rewrite EL in HA. apply (among_iff L cs HL Hcs s 0 x Hs (Z.le_refl 0) Hx) in HA. lia.
  - assert (X : exists dk' b, write_stripes L cs B wok wjunk dk buf lba = Some (dk', b) /\ outcome L cs B wok (overwrite B V lba buf) s n dk dk' b).
    { assert (EN : zlen buf / (col_len cs B * dm L) = n) by (rewrite Hz; unfold col_len; replace (n * (dm L * cs * B)) with (n * (cs * B * dm L)) by ring; apply Z.div_mul; nia).
      unfold write_stripes. rewrite EN. assert (EB : buf = map (overwrite B V lba buf) (zrange (s * (dm L * cs) * B) (s * (dm L * cs) * B + n * (dm L * col_len cs B)))).
      { rewrite <- EL. replace (n * (dm L * col_len cs B)) with (zlen buf) by (rewrite Hz; unfold col_len; ring). symmetry. apply buf_overwrite. }
      destruct (Z.eqb_spec n 1) as [E1|E1].
      - destruct (one_write L cs B HL HB Hcs wok wjunk (overwrite B V lba buf) s n Hs dk E1) as (dk' & b & R & O). exists dk', b. split; [|exact O]. rewrite E1, Z.mul_1_l in EB. rewrite <- EB, <- EL in R. exact R.
      - destruct (multi_write L cs B HL HB Hcs wok wjunk (overwrite B V lba buf) s n Hs Hn0 dk) as (dk' & b & R & O). exists dk', b. split; [|exact O]. rewrite <- EB, <- EL in R. exact R. }
    destruct X as (dk' & b & R & failed & F1 & F2 & F3 & F4 & F5). exists dk', failed. split; [rewrite R, F3; do 2 f_equal; destruct (Z.ltb_spec (lf L) (zlen failed)), (Z.leb_spec (zlen failed) (lf L)); cbn; lia|].
    split; [exact F1|]. split; [intros d Hd; apply (F2 d Hd)|]. split.
    + intros x Hx HA HN j Hj. rewrite EL in HA. apply (among_iff L cs HL Hcs s n x Hs Hn Hx) in HA. destruct (proj2 (C04_numbering L HL) x Hx) as [P E]. specialize (F4 (chunk_number L x) j HA). unfold pdN, poN in F4. rewrite E in F4. now apply F4.
    + intros d o Ho. apply F5. intros p Hp [E1 E2]. destruct (proj1 (C04_numbering L HL) p ltac:(nia)) as [C1 C2]. apply (Ho (nth_chunk L p) C1).
      * rewrite EL. apply (among_iff L cs HL Hcs s n _ Hs Hn C1). rewrite C2. exact Hp.
      * unfold pdN, poN in E1, E2. destruct (id2loc L (nth_chunk L p)) as [d0 o0]. cbn in E1, E2. unfold col_len in E2. congruence.
Qed.
Lemma overwrite_bytes B V lba buf : bytes V -> Forall (fun b => 0 <= b < 256) buf -> bytes (overwrite B V lba buf).
Proof.
  intros HV Hb x. unfold overwrite. destruct ((lba * B <=? x) && (x <? lba * B + zlen buf)) eqn:E; [|apply HV]. apply andb_prop in E. destruct E as [E1 E2]. apply Z.leb_le in E1. apply Z.ltb_lt in E2.
  rewrite Forall_forall in Hb. apply Hb. apply nth_In. unfold zlen in E2. lia.
Qed.
Lemma among_dec L cs B buf lba n x : sound L cs B -> stripes L cs B buf lba n -> chunk_exists L x -> among L cs lba n x \/ ~ among L cs lba n x.
Proof.
  intros (HL & _ & Hcs & _) (Hn & Hl & Hm & _) Hx. fold (dm L) in *. pose proof (m_range L HL) as MP. assert (WP : 0 < dm L * cs) by nia. pose proof (Z.div_mod lba (dm L * cs) ltac:(lia)) as D. rewrite Hm, Z.add_0_r in D. assert (Hs : 0 <= lba / (dm L * cs)) by (apply Z.div_pos; lia).
  set (s := lba / (dm L * cs)) in *. assert (EL : lba = s * (dm L * cs)) by (rewrite D; ring). rewrite EL. pose proof (among_iff L cs HL Hcs s n x Hs Hn Hx) as I. destruct (Z_le_dec (s * lk L) (chunk_number L x)), (Z_lt_dec (chunk_number L x) ((s + n) * lk L)); intuition lia.
Qed.
(** What was on the disks of the other stripes before is there afterwards. *)
Lemma write_keeps L cs B V dk dk' buf lba n x : sound L cs B -> stripes L cs B buf lba n ->
  (forall d o, (forall x, chunk_exists L x -> among L cs lba n x -> id2loc L x <> Loc d (o / (cs * B))) -> dk' d o = dk d o) ->
  chunk_exists L x -> ~ among L cs lba n x -> on_disk L cs B V dk x -> on_disk L cs B (overwrite B V lba buf) dk' x.
Proof.
  intros (HL & H256 & Hcs & HB) (Hn & Hl & Hm & Hz) F Hx NA Ho j Hj. fold (dm L) in *. pose proof (legal_fk L HL) as Hf. pose proof (m_range L HL) as MP.
  assert (W : 0 < dm L * cs) by nia. pose proof (Z.div_mod lba (dm L * cs) ltac:(lia)) as D. rewrite Hm, Z.add_0_r in D. set (s := lba / (dm L * cs)) in *. assert (Hs : 0 <= s) by (apply Z.div_pos; lia). assert (EL : lba = s * (dm L * cs)) by (rewrite D; ring).
  assert (NS : ~ s <= stripe_of L x < s + n). { intros I. apply NA. rewrite EL. apply (among_iff L cs HL Hcs s n x Hs Hn Hx). destruct (chunk_pos L HL x Hx) as (_ & i & Hi & _ & E). rewrite E. nia. }
  rewrite F; [rewrite Ho by exact Hj|].
  2: { intros y Hy AY E. apply NA. assert (EQ : y = x); [|rewrite <- EQ; exact AY]. rewrite (Z.add_comm (l_offset (id2loc L x) * (cs * B))), Z.div_add, Z.div_small, Z.add_0_l in E by nia. assert (E2 : id2loc L y = id2loc L x) by (rewrite E; now destruct (id2loc L x)).
    pose proof (C01_layout_invertible L y HL Hy) as I1. pose proof (C01_layout_invertible L x HL Hx) as I2. rewrite E2 in I1. congruence. }
  f_equal. apply content_stripe; try assumption. intros y Hy. unfold overwrite. rewrite EL, Hz. unfold col_len in Hy. destruct (Z.leb_spec (s * (dm L * cs) * B) y), (Z.ltb_spec y (s * (dm L * cs) * B + n * (dm L * cs * B))); cbn [andb]; try reflexivity. exfalso. apply NS. assert (WW : 0 < dm L * (cs * B)) by nia. clear - Hy H H0 WW. set (w := dm L * (cs * B)) in *. replace (s * (dm L * cs) * B) with (s * w) in * by (unfold w; ring). replace (n * (dm L * cs * B)) with (n * w) in * by (unfold w; ring). split; nia.
Qed.
(** ** An array with children absent still takes writes *)
(** With up to [lf L] children absent, a write of whole stripes succeeds, and any range of the array then reads back: what was written where it was
    written, and what was there before elsewhere. *)
Theorem C73_degraded_write_then_read : forall L cs B V dk wjunk absent buf lba n,
  sound L cs B -> stripes L cs B buf lba n -> bytes V -> Forall (fun b => 0 <= b < 256) buf -> NoDup absent -> zlen absent <= lf L ->
  (forall x, chunk_exists L x -> ~ In (l_disk (id2loc L x)) absent -> on_disk L cs B V dk x) ->
  exists dk', write_stripes L cs B (except absent) wjunk dk buf lba = Some (dk', true) /\
    (forall x, chunk_exists L x -> ~ In (l_disk (id2loc L x)) absent -> on_disk L cs B (overwrite B V lba buf) dk' x) /\
    forall junk mm from to, 0 <= from < to ->
      exists mm', read_disks_at L cs B dk' (except absent) junk (zlen absent) mm ((to - from) * B) from = Some (mm', true) /\ returned B (overwrite B V lba buf) from to mm'.
Proof.
  intros L cs B V dk wjunk absent buf lba n S W HV HB2 ND HA HD. destruct (C73_write_stores_stripes L cs B V dk (except absent) wjunk buf lba n S W) as (dk' & failed & E & F1 & F2 & F3 & F4).
  assert (IN : incl failed absent). { intros d Hd. destruct (F2 d Hd) as (l & El). unfold except in El. apply negb_false_iff, existsb_exists in El. destruct El as (x & Hx & Ex). apply Z.eqb_eq in Ex. now subst. }
  pose proof (NoDup_incl_length F1 IN) as LE. exists dk'. split; [rewrite E; do 2 f_equal; apply Z.leb_le; unfold zlen in *; lia|].
  assert (OD : forall x, chunk_exists L x -> ~ In (l_disk (id2loc L x)) absent -> on_disk L cs B (overwrite B V lba buf) dk' x).
  { intros x Hx HN. pose proof (among_dec L cs B buf lba n x S W Hx) as DC.
    destruct DC as [A|A]; [apply F3; auto|]. eapply write_keeps; eauto. }
  split; [exact OD|]. intros junk mm from to Hr. apply C71_reads_survive_absent_children; auto.
  - destruct S as (S1 & S2 & S3 & S4). exact (conj S1 (conj S2 (conj S3 (conj S4 Hr)))).
  - now apply overwrite_bytes.
Qed.
(** ** Errors during a write *)
(** If a write to a whole array reports success, then whatever failed, the array's new contents can be read back once the disks that failed - at
    most [lf L] - are treated as absent. *)
Theorem C73_success_is_recoverable : forall L cs B V dk wok wjunk buf lba n dk',
  sound L cs B -> stripes L cs B buf lba n -> bytes V -> Forall (fun b => 0 <= b < 256) buf ->
  (forall x, chunk_exists L x -> on_disk L cs B V dk x) ->
  write_stripes L cs B wok wjunk dk buf lba = Some (dk', true) ->
  exists failed, zlen failed <= lf L /\ (forall d, In d failed -> exists l, wok d l = false) /\
    forall junk mm from to, 0 <= from < to ->
      exists mm', read_disks_at L cs B dk' (except failed) junk (zlen failed) mm ((to - from) * B) from = Some (mm', true) /\ returned B (overwrite B V lba buf) from to mm'.
Proof.
  intros L cs B V dk wok wjunk buf lba n dk' S W HV HB2 HD R. destruct (C73_write_stores_stripes L cs B V dk wok wjunk buf lba n S W) as (dk2 & failed & E & F1 & F2 & F3 & F4). rewrite R in E. injection E as <- EB. symmetry in EB. apply Z.leb_le in EB.
  exists failed. split; [exact EB|]. split; [exact F2|]. intros junk mm from to Hr. apply C71_reads_survive_absent_children; auto.
  - destruct S as (S1 & S2 & S3 & S4). exact (conj S1 (conj S2 (conj S3 (conj S4 Hr)))).
  - now apply overwrite_bytes.
  - intros x Hx _ HN. pose proof (among_dec L cs B buf lba n x S W Hx) as DC.
    destruct DC as [A|A]; [apply F3; auto|]. eapply write_keeps; eauto.
Qed.
(** But the array does not treat them as absent: after a write that reported success, a read that reports success can return what was there before. *)
Definition ex_wok (d lba : Z) : bool := negb (d =? 0).
Definition ex_buf : list Z := [201; 202; 203; 204].
Definition ex_written := write_stripes exL 2 1 ex_wok (ideal exL 2 1 exV) (ideal exL 2 1 exV) ex_buf 0.
Theorem C73_successful_write_reads_back_refuted : exists L cs B V dk wok wjunk buf lba n dk' junk mm mm',
  sound L cs B /\ stripes L cs B buf lba n /\ bytes V /\ Forall (fun b => 0 <= b < 256) buf /\ (forall x, chunk_exists L x -> on_disk L cs B V dk x) /\
  write_stripes L cs B wok wjunk dk buf lba = Some (dk', true) /\
  read_disks_at L cs B dk' (fun _ _ => true) junk 0 mm (zlen buf) lba = Some (mm', true) /\ ~ returned B (overwrite B V lba buf) lba (lba + n * ((lk L - lf L) * cs)) mm'.
Proof.
  assert (X : match ex_written with Some (dk', b) => (b, ex_bytes 4 (read_disks_at exL 2 1 dk' (fun _ _ => true) (fun _ => 255) 0 (fun _ => 254) (zlen ex_buf) 0)) | None => (false, None) end = (true, Some ([3; 40; 203; 204], true))) by (vm_compute; reflexivity).
  destruct ex_written as [[dk' b]|] eqn:E; [|discriminate]. unfold ex_bytes in X. destruct (read_disks_at exL 2 1 dk' _ _ _ _ _ _) as [[mm' b']|] eqn:R; [|discriminate]. injection X as -> X1 X2 X3 X4 ->.
  exists exL, 2, 1, exV, (ideal exL 2 1 exV), ex_wok, (ideal exL 2 1 exV), ex_buf, 0, 1, dk', (fun _ => 255), (fun _ => 254), mm'.
  destruct ex_sane as ((HL & _) & _). split; [split; [exact HL|]; cbn; lia|]. split; [repeat split; try reflexivity; lia|]. split; [apply ex_bytes_ok|]. split; [repeat constructor; lia|]. split; [intros x Hx; apply ideal_on_disk; auto; lia|]. unfold ex_written in E. split; [exact E|]. split; [exact R|].
  intros H. specialize (H 0 ltac:(cbn; lia)). vm_compute in H. congruence.
Qed.

(** * C74: the stripe buffers and the disks together *)
(** The sequence of writes that the stripe buffers send to the disks (C08) is replayed against the disks, some of them absent throughout. *)
Section EndToEnd.
Context (L : layout) (cs : Z) (S : sound L cs 4096) (absent : list Z) (ND : NoDup absent) (HA : zlen absent <= lf L) (wjunk : disks).
Notation m := (lk L - lf L).
(** a stripe that some write covers *)
Definition covered (d : store) (t : Z) : Prop := exists l bs, In (l, bs) d /\ l <= t * (m * cs) < l + zlen bs / 4096.
Lemma replay_ok d : forall dk, Forall (fun w => 0 <= fst w /\ fst w mod (m * cs) = 0 /\ zlen (snd w) mod (m * cs * 4096) = 0) d ->
  exists dk', replay L cs 4096 (except absent) wjunk dk d = Some (dk', true) /\
    forall g x, chunk_exists L x -> ~ In (l_disk (id2loc L x)) absent -> covered d (stripe_of L x) -> on_disk L cs 4096 (st_get g d) dk' x.
Proof.
  destruct S as (HL & H256 & Hcs & HB). pose proof (legal_fk L HL) as Hf. assert (MP : 0 < m) by lia. assert (W : 0 < m * cs) by nia.
  induction d as [|[l bs] d IH]; intros dk HF; cbn [replay].
  - exists dk. split; [reflexivity|]. intros g x _ _ (l & bs & [] & _).
  - inversion HF as [|w ws [H1 [H2 H3]] H4]; subst. cbn [fst snd] in *. destruct (IH dk H4) as (dk1 & -> & O1). cbn [obind fst snd].
    set (n := zlen bs / (m * cs * 4096)). assert (WS : stripes L cs 4096 bs l n).
    { pose proof (Z.div_mod (zlen bs) (m * cs * 4096) ltac:(lia)) as D. rewrite H3, Z.add_0_r in D. fold n in D. pose proof (zlen_nonneg bs). repeat split; try assumption; [apply Z.div_pos; lia|lia]. }
    destruct (C73_write_stores_stripes L cs 4096 (fun _ => 0) dk1 (except absent) wjunk bs l n S WS) as (dk2 & failed & E & F1 & F2 & _ & F4).
    assert (IN : incl failed absent). { intros d0 Hd. destruct (F2 d0 Hd) as (l0 & El). unfold except in El. apply negb_false_iff, existsb_exists in El. destruct El as (x & Hx & Ex). apply Z.eqb_eq in Ex. now subst. }
    pose proof (NoDup_incl_length F1 IN) as LE. exists dk2. rewrite E. cbn [obind fst snd andb]. split; [do 2 f_equal; apply Z.leb_le; unfold zlen in *; lia|].
    intros g x Hx HN HC. change (st_get g ((l, bs) :: d)) with (overwrite 4096 (st_get g d) l bs). destruct (among_dec L cs 4096 bs l n x S WS Hx) as [A|A].
    + destruct (C73_write_stores_stripes L cs 4096 (st_get g d) dk1 (except absent) wjunk bs l n S WS) as (dk3 & failed3 & E3 & G1 & G2 & G3 & _). rewrite E in E3. injection E3 as <- _. apply G3; auto.
      intros Hd. apply HN. destruct (G2 _ Hd) as (l0 & El). unfold except in El. apply negb_false_iff, existsb_exists in El. destruct El as (y & Hy & Ey). apply Z.eqb_eq in Ey. now rewrite Ey.
    + apply (write_keeps L cs 4096 (st_get g d) dk1 dk2 bs l n x S WS F4 Hx A). apply O1; auto. destruct HC as (l0 & bs0 & [E0|I0] & C0); [|exists l0, bs0; auto]. injection E0 as <- <-. exfalso. apply A. exists (stripe_of L x * (m * cs)). rewrite Z.div_mul by lia. split; [|reflexivity].
      destruct WS as (_ & _ & _ & Z0). rewrite Z0 in C0. replace (n * (m * cs * 4096)) with (n * (m * cs) * 4096) in C0 by ring. rewrite Z.div_mul in C0 by lia. exact C0.
Qed.
End EndToEnd.

Lemma st_get_covered d a : st_get (fun _ => 0) d a = st_get (fun _ => 1) d a -> exists l bs, In (l, bs) d /\ l * 4096 <= a < l * 4096 + zlen bs.
Proof.
  induction d as [|[l bs] d IH]; cbn [st_get]; [discriminate|]. unfold st_write. change BYTES_PER_LBA with 4096. destruct (Z.leb_spec (l * 4096) a), (Z.ltb_spec a (l * 4096 + zlen bs)); cbn [andb]; intros E.
  1: exists l, bs; split; [now left|lia].
  all: destruct (IH E) as (l' & bs' & I & H'); exists l', bs'; split; [now right|exact H'].
Qed.
Lemma run_app sl zs a : forall r b, SB_Props.run sl zs r (a ++ b) = match SB_Props.run sl zs r a with Some r' => SB_Props.run sl zs r' b | None => None end.
Proof. induction a as [|o a IH]; intros r b; cbn [SB_Props.run app]; [reflexivity|]. destruct (step sl zs r o); [apply IH|reflexivity]. Qed.
Lemma legal_app sl zs ze a : forall s b, legal_run sl zs ze s (a ++ b) <-> legal_run sl zs ze s a /\ legal_run sl zs ze (spec_run sl s a) b.
Proof. induction a as [|o a IH]; intros s b; cbn [legal_run app]; [cbn; tauto|]. rewrite IH. cbn [spec_run fold_left]. tauto. Qed.
Definition byte_list (l : list Z) : Prop := Forall (fun b => 0 <= b < 256) l.
(** the caller's buffers hold bytes *)
Definition op_bytes (o : op) : Prop := match o with Write _ _ buf => byte_list buf | _ => True end.
Lemma rep_bytes b n : 0 <= b < 256 -> byte_list (zrepeat b n).
Proof. intros H. unfold byte_list, zrepeat. apply Forall_forall. intros x Hx. apply repeat_spec in Hx. lia. Qed.
Lemma pad_bytes u l : byte_list l -> byte_list (pad_to u l).
Proof. intros H. apply Forall_app. split; [exact H|apply rep_bytes; lia]. Qed.
Lemma log_bytes sl ops : Forall op_bytes ops -> forall s, (forall z, byte_list (log s z)) -> forall z, byte_list (log (spec_run sl s ops) z).
Proof.
  induction ops as [|o ops IH]; intros HF s Hs; [exact Hs|]. inversion HF as [|x l Ho Hr]; subst. cbn [spec_run fold_left]. apply IH; [exact Hr|].
  assert (U : forall z0 l0, byte_list l0 -> forall z, byte_list (SB_Props.upd (log s) z0 l0 z)) by (intros z0 l0 H0 z; unfold SB_Props.upd; destruct (z =? z0); auto).
  destruct o as [z0 a|z0 lba buf|z0|z0]; cbn [spec_step].
  - apply U. unfold byte_list, ztake. specialize (Hs z0). unfold byte_list in Hs. rewrite <- (firstn_skipn (Z.to_nat (a * 4096)) (log s z0)) in Hs. apply Forall_app in Hs. apply Hs.
  - apply U. apply pad_bytes. apply Forall_app. split; [apply Hs|exact Ho].
  - destruct (opened s z0); [|exact Hs]. apply U. apply pad_bytes, Hs.
  - apply U. apply pad_bytes, Hs.
Qed.
Lemma nth_skip (l : list Z) d : forall n i, nth i (skipn n l) d = nth (n + i) l d.
Proof. induction l as [|x l IH]; intros [|n] i; cbn; try reflexivity; [now destruct i|apply IH]. Qed.
Lemma pad_len u l : 0 < u -> zlen (pad_to u l) mod u = 0.
Proof.
  intros Hu. unfold pad_to, fill_to. pose proof (Z.mod_pos_bound (- zlen l) u Hu) as Hb. rewrite zlen_app, zlen_repeat by lia. rewrite Z.add_mod_idemp_r by lia. rewrite Z.add_opp_diag_r. apply Z.mod_0_l. lia.
Qed.

(** For every layout, every sequence of appends, flushes, openings and finishings of zones, and any up to [lf L] disks absent from the beginning: the
    writes that reach the disks all succeed, and any range of a zone, once flushed, reads back from the remaining disks exactly what was appended. *)
Theorem C74_flushed_data_survives_absent_disks : forall L cs zs ze absent wjunk dk ops z,
  sound L cs 4096 -> geometry ((lk L - lf L) * cs) zs ze -> legal_run ((lk L - lf L) * cs) zs ze spec0 ops -> Forall op_bytes ops ->
  NoDup absent -> zlen absent <= lf L ->
  exists r pad r' dk', SB_Props.run ((lk L - lf L) * cs) zs raid0 ops = Some r /\ flush_zone ((lk L - lf L) * cs) r z = Some (pad, r') /\
    replay L cs 4096 (except absent) wjunk dk (rd_store r') = Some (dk', true) /\
    let after := log (spec_run ((lk L - lf L) * cs) spec0 (ops ++ [Flush z])) z in
    forall junk mm from to, zs z <= from < to -> (to - zs z) * 4096 <= zlen after ->
      exists mm', read_disks_at L cs 4096 dk' (except absent) junk (zlen absent) mm ((to - from) * 4096) from = Some (mm', true) /\
        map (fun j => mm' (0, j)) (zrange 0 ((to - from) * 4096)) = ztake ((to - from) * 4096) (zdrop ((from - zs z) * 4096) after).
Proof.
  intros L cs zs ze absent wjunk dk ops z S G Hl HB ND HA. pose proof S as (HL & H256 & Hcs & _). pose proof (legal_fk L HL) as Hf. set (sl := (lk L - lf L) * cs) in *.
  assert (SP : 0 < sl) by (unfold sl; nia). destruct (C08_flush_writes_everything sl zs ze (fun _ => 0) ops z G Hl) as (r & pad & r' & Er & Ef & _).
  assert (Hl2 : legal_run sl zs ze spec0 (ops ++ [Flush z])) by (apply legal_app; split; [exact Hl|repeat split]).
  assert (Er2 : SB_Props.run sl zs raid0 (ops ++ [Flush z]) = Some r') by (rewrite run_app, Er; cbn [SB_Props.run step]; rewrite Ef; reflexivity).
  assert (HW : Forall (fun w => 0 <= fst w /\ fst w mod sl = 0 /\ zlen (snd w) mod (sl * 4096) = 0) (rd_store r')).
  { destruct (C08_stripe_buffer_read_back sl zs ze (fun _ => 0) _ G Hl2) as (r2 & E2 & _ & W). rewrite Er2 in E2. injection E2 as <-. apply Forall_forall. intros [l bs] Hin. apply (W l bs Hin). }
  destruct (replay_ok L cs S absent HA wjunk (rd_store r') dk HW) as (dk' & ER & OD). exists r, pad, r', dk'. split; [exact Er|]. split; [exact Ef|]. split; [exact ER|].
  set (after := log (spec_run sl spec0 (ops ++ [Flush z])) z). cbv zeta.
  assert (SG : forall g i, 0 <= i < zlen after -> st_get g (rd_store r') (zs z * 4096 + i) = nth (Z.to_nat i) after 0).
  { intros g i Hi. destruct (C08_flush_writes_everything sl zs ze g ops z G Hl) as (r3 & pad3 & r3' & E3 & F3 & _ & R3). rewrite Er in E3. injection E3 as <-. rewrite Ef in F3. injection F3 as _ <-. fold after in R3. rewrite <- R3 at 1. unfold st_read.
    rewrite (nth_indep _ 0 (st_get g (rd_store r') (zs z * 4096 + 0))) by (rewrite map_length, zrange_length; lia). rewrite (map_nth (fun i => st_get g (rd_store r') (zs z * 4096 + i))). rewrite nth_zrange by lia. do 2 f_equal. lia. }
  assert (AM : zlen after mod (sl * 4096) = 0).
  { unfold after, spec_run. rewrite fold_left_app. cbn [fold_left]. fold (spec_run sl spec0 ops). cbn [spec_step]. destruct (run_inv sl zs ze G (fun _ => 0) ops raid0 spec0 (inv_init sl zs ze G (fun _ => 0)) Hl) as (r4 & E4 & _ & ZI & _). rewrite Er in E4. injection E4 as <-. specialize (ZI z). destruct ZI as [_ ZI].
    destruct (opened (spec_run sl spec0 ops) z) eqn:EO.
    - cbn [log]. unfold SB_Props.upd. rewrite Z.eqb_refl. apply pad_len. lia.
    - destruct (sbs_get (rd_sbs r) z); [destruct ZI; congruence|]. apply ZI. }
  assert (AB : byte_list after). { apply (log_bytes sl (ops ++ [Flush z])); [apply Forall_app; split; [exact HB|repeat constructor]|]. intros z0. constructor. }
  assert (ZM : zs z mod sl = 0 /\ 0 <= zs z) by (destruct G as (_ & Hz & _); pose proof (Hz z); lia). destruct ZM as [ZM ZP].
  pose proof (Z.div_mod (zs z) sl ltac:(lia)) as DZ. rewrite ZM, Z.add_0_r in DZ. pose proof (Z.div_mod (zlen after) (sl * 4096) ltac:(lia)) as DA. rewrite AM, Z.add_0_r in DA.
  intros junk mm from to Hr Hto. set (V := fun x => st_get (fun _ => 0) (rd_store r') x mod 256).
  assert (VB : bytes V) by (intros x; apply Z.mod_pos_bound; lia).
  assert (VA : forall i, 0 <= i < zlen after -> V (zs z * 4096 + i) = nth (Z.to_nat i) after 0).
  { intros i Hi. unfold V. rewrite SG by exact Hi. apply Z.mod_small. unfold byte_list in AB. rewrite Forall_forall in AB. apply AB. apply nth_In. unfold zlen in Hi. lia. }
  assert (SA : sane L cs 4096 from to) by (exact (conj HL (conj H256 (conj Hcs (conj eq_refl (conj (Z.le_trans _ _ _ ZP (proj1 Hr)) (proj2 Hr))))))).
  destruct (C71_reads_survive_absent_children L cs 4096 V dk' junk absent mm from to SA VB ND HA) as (mm' & R & RT).
  - intros x Hx (a & Ha & Et) HN. fold sl in Et. set (t := stripe_of L x) in *. assert (TB : zs z / sl <= t < zs z / sl + zlen after / (sl * 4096)).
    { rewrite Et. split; [apply Z.div_le_mono; lia|]. apply Z.div_lt_upper_bound; [lia|]. set (q := zlen after / (sl * 4096)) in *. nia. }
    assert (CV : covered L cs (rd_store r') t).
    { destruct (st_get_covered (rd_store r') (t * sl * 4096)) as (l & bs & Hin & Hc).
      - replace (t * sl * 4096) with (zs z * 4096 + (t - zs z / sl) * sl * 4096) by (rewrite DZ at 1; ring). assert (TR : 0 <= (t - zs z / sl) * sl * 4096 < zlen after) by (clear - DA TB SP; set (q := zlen after / (sl * 4096)) in *; nia). rewrite !SG by exact TR. reflexivity.
      - exists l, bs. split; [exact Hin|]. fold sl. rewrite Forall_forall in HW. destruct (HW _ Hin) as (W1 & W2 & W3). cbn [fst snd] in *. split; [lia|]. assert (t * sl - l < zlen bs / 4096); [|lia]. assert (E5 : zlen bs = zlen bs / 4096 * 4096) by (pose proof (Z.div_mod (zlen bs) (sl * 4096) ltac:(lia)) as D5; rewrite W3, Z.add_0_r in D5; rewrite D5; replace (sl * 4096 * (zlen bs / (sl * 4096))) with (zlen bs / (sl * 4096) * sl * 4096) by ring; now rewrite Z.div_mul by lia). clear - E5 Hc. lia. }
    intros j Hj. rewrite (OD (fun _ => 0) x Hx HN CV j Hj). f_equal. apply content_stripe; try assumption; [reflexivity|]. fold t. intros y Hy. replace (dm L * col_len cs 4096) with (sl * 4096) in Hy by (unfold sl, dm, col_len; ring).
    assert (YR : 0 <= y - zs z * 4096 < zlen after) by (set (q := zlen after / (sl * 4096)) in *; set (u := zs z / sl) in *; clear - DA DZ TB SP Hy; nia). replace y with (zs z * 4096 + (y - zs z * 4096)) by lia. rewrite VA, SG by exact YR. reflexivity.
  - exists mm'. split; [exact R|]. unfold returned in RT. pose proof (zlen_nonneg after) as ZN. assert (LEN : zlen (ztake ((to - from) * 4096) (zdrop ((from - zs z) * 4096) after)) = (to - from) * 4096) by (unfold ztake, zdrop, zlen in *; rewrite firstn_length, skipn_length; clear - Hto Hr ZN; lia).
    apply (nth_ext _ _ 0 0); [rewrite map_length, zrange_length; unfold zlen in LEN; lia|]. intros p Hp. rewrite map_length, zrange_length in Hp. rewrite (nth_indep _ 0 ((fun j => mm' (0, j)) 0)) by (rewrite map_length, zrange_length; lia). rewrite (map_nth (fun j => mm' (0, j))). rewrite nth_zrange by lia. rewrite Z.add_0_l. rewrite RT by lia.
    replace (from * 4096 + Z.of_nat p) with (zs z * 4096 + ((from - zs z) * 4096 + Z.of_nat p)) by lia. rewrite VA by lia. rewrite <- (Nat2Z.id p) at 2. rewrite (nth_ztake (fun _ => 0)) by lia. unfold zdrop. rewrite nth_skip. f_equal. clear - Hr. lia.
Qed.

(** ** The hypotheses can be met *)
(** two stripes are written to the five disks of [exL] without disks 0 and 3; an unaligned read across the three first stripes *)
Example C73_ex_sound : sound exL 2 1 /\ sound exL 2 4096 /\ stripes exL 2 1 [1; 2; 3; 4; 5; 6; 7; 8] 4 2.
Proof. destruct ex_sane as ((HL & _) & _). split; [|split]; [split; [exact HL|]; cbn; lia|split; [exact HL|]; cbn; lia|repeat split; try reflexivity; lia]. Qed.
Example C73_ex : match write_stripes exL 2 1 (except [0; 3]) (fun _ _ => 9) (ideal exL 2 1 exV) [1; 2; 3; 4; 5; 6; 7; 8] 4 with
  | Some (dk', b) => (b, ex_bytes 7 (read_disks_at exL 2 1 dk' (except [0; 3]) (fun _ => 255) 2 (fun _ => 254) 7 3))
  | None => (false, None) end = (true, Some ([exV 3; 1; 2; 3; 4; 5; 6], true)).
Proof. vm_compute. reflexivity. Qed.
(** four-LBA stripes and eight-LBA zones: less than an LBA, a write that straddles two stripes, another zone *)
Definition ex74_ops : list op := [Open 0 0; Write 0 0 [1; 2; 3]; Write 0 1 (zrepeat 9 20000); Open 1 0; Write 1 8 [7]].
Definition ex74_zs (z : Z) : Z := 8 * Z.max 0 z.
Definition ex74_ze (z : Z) : Z := 8 * Z.max 0 (z + 1).
Example C74_ex : geometry ((lk exL - lf exL) * 2) ex74_zs ex74_ze /\ legal_run ((lk exL - lf exL) * 2) ex74_zs ex74_ze spec0 ex74_ops /\ Forall op_bytes ex74_ops /\
  zlen (log (spec_run ((lk exL - lf exL) * 2) spec0 (ex74_ops ++ [Flush 0])) 0) = 32768.
Proof.
  change ((lk exL - lf exL) * 2) with 4. split; [|split; [|split]].
  - unfold geometry, ex74_zs, ex74_ze. split; [lia|]. split; [|intros; lia]. intros z. replace (8 * Z.max 0 z) with (2 * Z.max 0 z * 4) by lia. rewrite Z.mod_mul by lia. replace (8 * Z.max 0 (z + 1)) with (2 * Z.max 0 (z + 1) * 4) by lia. rewrite Z.mod_mul by lia. lia.
  - repeat split; try (vm_compute; congruence).
  - constructor; [exact I|]. constructor; [repeat constructor; lia|]. constructor; [apply rep_bytes; lia|]. repeat constructor; lia.
  - vm_compute. reflexivity.
Qed.
Print Assumptions C73_write_stores_stripes.
Print Assumptions C73_degraded_write_then_read.
Print Assumptions C73_success_is_recoverable.
Print Assumptions C73_successful_write_reads_back_refuted.
Print Assumptions C74_flushed_data_survives_absent_disks.
