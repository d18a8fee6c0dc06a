(** Reading (part of) one stripe: proofs. *)
From Verif Require Import Common FSM_Model PrimeS_Model PrimeS_Props Codec_Model Codec_GF Codec_Props Raid_Model Raid_Recon Raid_World.

(** * Buffers *)
Lemma in_buffer a id len : In a (buffer id len) <-> fst a = id /\ 0 <= snd a < len.
Proof.
  unfold buffer. rewrite in_map_iff. split.
  - intros (j & <- & Hj). apply in_zrange in Hj. auto.
  - intros (<- & H). exists (snd a). split; [now destruct a|]. now apply in_zrange.
Qed.
Lemma zlen_buffer id len : 0 <= len -> zlen (buffer id len) = len.
Proof. intros H. unfold buffer. rewrite zlen_map, zlen_zrange; lia. Qed.
Lemma NoDup_buffer id len : NoDup (buffer id len).
Proof. apply FinFun.Injective_map_NoDup; [intros x y E; congruence|apply NoDup_zrange]. Qed.
Lemma sub_buffer id len o n : 0 <= o -> 0 <= n -> o + n <= len -> sub o n (buffer id len) = map (fun j => (id, j)) (zrange o (o + n)).
Proof. intros. unfold buffer. rewrite <- map_sub. now rewrite zrange_sub. Qed.

(** * Reading into cells *)
Section ChildRead.
Context (B : Z) (dk : Z -> Z -> Z) (ok : Z -> Z -> bool) (junk : mem).
Lemma child_readv_res mm sg d l : snd (child_readv B dk ok junk mm sg d l) = ok d l.
Proof. unfold child_readv. cbv zeta. now destruct (ok d l). Qed.
Lemma child_readv_ok mm sg d l : NoDup (concat sg) -> ok d l = true ->
  get (fst (child_readv B dk ok junk mm sg d l)) (concat sg) = map (fun j => dk d (l * B + j)) (zrange 0 (zlen (concat sg))).
Proof.
  intros N H. unfold child_readv. cbv zeta. rewrite H. cbn [fst]. apply get_put_same; [exact N|]. rewrite map_length, zrange_length. unfold zlen. lia.
Qed.
Lemma child_readv_other mm sg d l a : ~ In a (concat sg) -> fst (child_readv B dk ok junk mm sg d l) a = mm a.
Proof. intros H. unfold child_readv. cbv zeta. destruct (ok d l); cbn [fst]; now apply put_other. Qed.
End ChildRead.

Lemma ofold_app {A S} (f : S -> A -> option S) l1 l2 s : ofold f (l1 ++ l2) s = obind (ofold f l1 s) (ofold f l2).
Proof. revert s. induction l1 as [|x l1 IH]; intros s; cbn [app ofold obind]; [reflexivity|]. destruct (f s x); cbn [obind]; auto. Qed.
(** a loop over positions *)
Lemma ofold_inv {S A} (f : S -> A -> option S) (g : Z -> A) (P : Z -> S -> Prop) lo hi s : lo <= hi -> P lo s ->
  (forall i s, lo <= i < hi -> P i s -> exists s', f s (g i) = Some s' /\ P (i + 1) s') -> exists s', ofold f (map g (zrange lo hi)) s = Some s' /\ P hi s'.
Proof.
  intros H. revert s. replace hi with (lo + Z.of_nat (Z.to_nat (hi - lo))) by lia. assert (Hn : lo + Z.of_nat (Z.to_nat (hi - lo)) = hi) by lia. revert Hn. generalize (Z.to_nat (hi - lo)) as n. clear H. intros n Hn. clear Hn hi.
  revert lo. induction n as [|n IH]; intros lo s P0 St.
  - replace (lo + Z.of_nat 0) with lo by lia. rewrite zrange_empty by lia. cbn. eauto.
  - rewrite zrange_cons by lia. cbn [map ofold]. destruct (St lo s ltac:(lia) P0) as (s1 & E & P1). rewrite E. cbn [obind].
    destruct (IH (lo + 1) s1 P1) as (s2 & E2 & P2).
    + intros i s' Hi. apply St. lia.
    + replace (lo + Z.of_nat (Datatypes.S n)) with (lo + 1 + Z.of_nat n) by lia. eauto.
Qed.

Local Opaque id2loc nth_chunk.
Section One.
Context (L : layout) (cs B : Z) (HL : legal L) (HB : 0 < B) (Hcs : 0 < cs) (H256 : lk L <= 256).
Notation m := (dm L).
Notation C := (col_len cs B).
Context (V : Z -> Z) (HV : forall x, 0 <= V x < 256).
Context (dk : Z -> Z -> Z) (ok : Z -> Z -> bool) (junk : mem) (faulted : Z) (Hfa : 0 <= faulted).
Context (lba elba : Z) (I : in_stripe L cs lba elba).
Notation s := (lba / (m * cs)).
Notation D := (buffer 0 ((elba - lba) * B)).
Let Hf := legal_fk L HL.
Let MP := m_range L HL.

Notation chk := (chk L cs lba).
Notation pre := (pre L cs lba).
Notation post := (post L cs lba elba).
Notation ulen := (ulen L cs lba elba).
Notation upos := (upos L cs lba elba).

(** numbering of the extra buffers *)
Definition cnt (i : Z) : Z := (if 0 <? pre i then 1 else 0) + (if 0 <? post i then 1 else 0).
Definition nid (i : Z) : Z := 1 + fold_right Z.add 0 (map cnt (zrange 0 i)).
Definition eA (i : Z) : slice := buffer (nid i) (pre i * B).
Definition eB (i : Z) : slice := buffer (nid i + (if 0 <? pre i then 1 else 0)) (post i * B).
Notation exs := (exs L cs lba elba eA eB).
Notation du := (du L cs B lba elba D).
Notation cell := (cell L cs B lba elba D eA eB).
Notation shape i := (shape L cs Hcs lba elba i I).
Notation upos_succ i := (upos_succ L cs Hcs lba elba i I).

Lemma cnt_range i : 0 <= cnt i.
Proof. unfold cnt. destruct (0 <? pre i), (0 <? post i); lia. Qed.
Lemma sum_app a b : fold_right Z.add 0 (a ++ b) = fold_right Z.add 0 a + fold_right Z.add 0 b.
Proof. induction a; cbn; lia. Qed.
Lemma nid_succ i : 0 <= i -> nid (i + 1) = nid i + cnt i.
Proof. intros H. unfold nid. rewrite (zrange_snoc 0 (i + 1)) by lia. replace (i + 1 - 1) with i by lia. rewrite map_app, sum_app. cbn [map fold_right]. lia. Qed.
Lemma nid_0 : nid 0 = 1.
Proof. unfold nid. rewrite zrange_empty by lia. reflexivity. Qed.
Lemma nid_mono i j : 0 <= i <= j -> nid i <= nid j.
Proof.
  intros H. replace j with (i + Z.of_nat (Z.to_nat (j - i))) by lia. generalize (Z.to_nat (j - i)) as n. induction n as [|n IH]; [replace (i + Z.of_nat 0) with i by lia; lia|].
  replace (i + Z.of_nat (Datatypes.S n)) with (i + Z.of_nat n + 1) by lia. rewrite nid_succ by lia. pose proof (cnt_range (i + Z.of_nat n)). lia.
Qed.
Lemma nid_pos i : 0 <= i -> 1 <= nid i.
Proof. intros H. pose proof (nid_mono 0 i ltac:(lia)). rewrite nid_0 in *. lia. Qed.
Lemma sized_one : sized L cs B lba elba D eA eB.
Proof.
  destruct I as (I0 & I1 & _). split; [apply zlen_buffer; nia|]. intros i Hi. destruct (upos_succ i) as (U1 & U2 & U3 & _). split; apply zlen_buffer; nia.
Qed.
Lemma upos_mono_le i j : i <= j -> upos i <= upos j.
Proof. intros H. unfold Raid_Recon.upos, Raid_Recon.chk. assert (i * cs <= j * cs) by nia. lia. Qed.
Lemma du_eq i : du i = map (fun j => (0, j)) (zrange (upos i * B) (upos (i + 1) * B)).
Proof.
  destruct (upos_succ i) as (U1 & U2 & U3 & U4 & U5). pose proof (upos_mono L cs Hcs lba elba i I). unfold Raid_Recon.du. rewrite sub_buffer by nia. do 2 f_equal. rewrite U4. ring.
Qed.
Lemma in_cell i a : 0 <= i -> In a (cell i) -> (fst a = 0 /\ upos i * B <= snd a < upos (i + 1) * B) \/ (nid i <= fst a < nid (i + 1) /\ 1 <= fst a).
Proof.
  intros Hi H. pose proof (nid_succ i Hi) as N. pose proof (nid_pos i Hi). unfold cnt in N. unfold Raid_Recon.cell in H. rewrite !in_app_iff in H. destruct H as [H|[H|H]].
  - right. apply in_buffer in H. destruct H as [H1 H2]. destruct (Z.ltb_spec 0 (pre i)); [|nia]. destruct (0 <? post i); lia.
  - left. rewrite du_eq in H. apply in_map_iff in H. destruct H as (j & <- & Hj). apply in_zrange in Hj. auto.
  - right. apply in_buffer in H. destruct H as [H1 H2]. destruct (Z.ltb_spec 0 (post i)); [|nia]. destruct (0 <? pre i); lia.
Qed.
Lemma distinct_one n : distinct L cs B lba elba D eA eB n.
Proof.
  split.
  - intros i Hi. unfold Raid_Recon.cell. pose proof (nid_pos i ltac:(lia)) as N. rewrite du_eq. apply NoDup_app_iff. split; [apply NoDup_buffer|]. split.
    + apply NoDup_app_iff. split; [apply FinFun.Injective_map_NoDup; [intros x y E; congruence|apply NoDup_zrange]|]. split; [apply NoDup_buffer|].
      intros x H1 H2. apply in_buffer in H2. apply in_map_iff in H1. destruct H1 as (j & <- & _). cbn [fst] in H2. destruct (0 <? pre i); lia.
    + intros x H1 H2. apply in_buffer in H1. apply in_app_iff in H2. destruct H2 as [H2|H2].
      * apply in_map_iff in H2. destruct H2 as (j & <- & _). cbn [fst] in H1. lia.
      * apply in_buffer in H2. destruct (Z.ltb_spec 0 (pre i)); nia.
  - intros i j a Hi Hj Hne H1 H2. apply in_cell in H1; [|lia]. apply in_cell in H2; [|lia]. 
    assert (X : i + 1 <= j \/ j + 1 <= i) by lia. destruct X as [X|X].
    + pose proof (nid_mono (i + 1) j ltac:(lia)). pose proof (upos_mono_le (i + 1) j X). nia.
    + pose proof (nid_mono (j + 1) i ltac:(lia)). pose proof (upos_mono_le (j + 1) i X). nia.
Qed.

Lemma s_nonneg : 0 <= s.
Proof. destruct I as (I0 & _). apply Z.div_pos; nia. Qed.
Lemma slba_eq : lba - lba mod (m * cs) = s * m * cs.
Proof. pose proof (Z.div_mod lba (m * cs) ltac:(nia)). nia. Qed.
Lemma chk_eq i : chk i = (s * m + i) * cs.
Proof. unfold Raid_Recon.chk. rewrite slba_eq. ring. Qed.
Lemma col_eq i : 0 <= i < m -> scol L cs B V s i = map V (zrange (chk i * B) ((chk i + cs) * B)).
Proof. intros H. rewrite (scol_data L cs B HL) by exact H. unfold dcol. rewrite chk_eq. unfold col_len. do 2 f_equal; ring. Qed.
Lemma good_one : good_stripe L cs B (scol L cs B V s).
Proof. apply scol_good; auto using s_nonneg. Qed.

(** ** The state after positions [0, n) *)
Definition okp (i : Z) : bool := ok (pd L s i) (po L s i * cs).
(** what a disk that answers returns for a chunk is right *)
Definition stored (i : Z) : Prop := map (fun j => dk (pd L s i) (po L s i * C + j)) (zrange 0 C) = scol L cs B V s i.
Context (Hst : forall i l, 0 <= i < lk L -> po L s i * cs <= l < (po L s i + 1) * cs -> ok (pd L s i) l = true -> stored i).

Definition inv (K : Z -> Prop) (n : Z) (st : rst) : Prop :=
  r_ex st = Some (concat (map exs (zrange 0 n))) /\ r_dv st = map okp (zrange 0 n) /\ r_next st = nid n /\
  (forall i, 0 <= i -> i < n \/ K i -> okp i = true -> get (r_mem st) (cell i) = scol L cs B V s i).
Notation cr := (child_readv B dk ok junk).
Notation rr := (rread B dk ok junk).

Lemma read_cell mm sg i : 0 <= i < lk L -> concat sg = cell i -> okp i = true -> get (fst (cr mm sg (pd L s i) (po L s i * cs))) (cell i) = scol L cs B V s i.
Proof.
  intros Hi E Hk. rewrite <- E at 1. rewrite child_readv_ok; [|rewrite E; apply (distinct_one (lk L)); lia|exact Hk]. rewrite E. rewrite (zlen_cell L cs B HB Hcs Hf H256 lba elba D eA eB i sized_one I) by lia.
  rewrite <- (Hst i (po L s i * cs) Hi ltac:(lia) Hk). apply map_ext. intros j. f_equal. unfold col_len. generalize (po L s i). intros o. ring.
Qed.
Lemma read_other mm sg i j d l : 0 <= i -> 0 <= j -> i <> j -> concat sg = cell i -> get (fst (cr mm sg d l)) (cell j) = get mm (cell j).
Proof.
  intros Hi Hj Hne E. apply get_ext. intros a Ha. apply child_readv_other. rewrite E. intros Ha'. revert Ha. apply (proj2 (distinct_one (1 + Z.max i j)) i j a); auto; lia.
Qed.
Lemma exs_snoc i : 0 <= i -> concat (map exs (zrange 0 (i + 1))) = concat (map exs (zrange 0 i)) ++ exs i.
Proof. intros H. rewrite (zrange_snoc 0 (i + 1)) by lia. replace (i + 1 - 1) with i by lia. rewrite map_app, concat_app. cbn [map concat]. now rewrite app_nil_r. Qed.
Lemma okp_snoc i : 0 <= i -> map okp (zrange 0 (i + 1)) = map okp (zrange 0 i) ++ [okp i].
Proof. intros H. rewrite (zrange_snoc 0 (i + 1)) by lia. replace (i + 1 - 1) with i by lia. now rewrite map_app. Qed.
Lemma inv_read K i st st1 sg : 0 <= i < lk L -> inv K i st -> r_mem st1 = r_mem st -> r_dv st1 = r_dv st -> r_ex st1 = Some (concat (map exs (zrange 0 i)) ++ exs i) ->
  r_next st1 = nid i + cnt i -> concat sg = cell i -> inv K (i + 1) (rr st1 sg (pd L s i) (po L s i * cs)).
Proof.
  intros Hi (J1 & J2 & J3 & J4) E1 E2 E3 E4 Hsg. unfold inv, rread. cbv zeta. cbn [r_ex r_dv r_next r_mem]. split; [rewrite E3, exs_snoc by lia; reflexivity|]. split; [rewrite E2, J2, okp_snoc, child_readv_res by lia; reflexivity|].
  split; [rewrite E4, nid_succ by lia; reflexivity|]. intros j Hj HK Hk. destruct (Z.eq_dec j i) as [->|Hne].
  - apply read_cell; auto.
  - rewrite (read_other _ sg i j) by (auto; lia). rewrite E1. apply J4; [lia|destruct HK as [HK|HK]; [left; lia|now right]|exact Hk].
Qed.
(** the buffer of a chunk outside of the caller's range *)
Lemma whole_ex K i st : 0 <= i < lk L -> inv K i st -> ulen i = 0 ->
  exists st1, alloc st C = Some (buffer (nid i) C, st1) /\ r_buf st1 = r_buf st /\ inv K (i + 1) (rr st1 [buffer (nid i) C] (pd L s i) (po L s i * cs)).
Proof.
  intros Hi J U. pose proof J as (J1 & J2 & J3 & J4). unfold alloc. rewrite J1, J3. cbv zeta. eexists. split; [reflexivity|]. split; [reflexivity|]. 
  assert (X : (pre i = cs /\ post i = 0) \/ (pre i = 0 /\ post i = cs)). { pose proof (shape i) as X. clear -X U Hcs I. destruct I as (_ & I1 & _). destruct X as [X|[X|[X|[X|[X|X]]]]]; lia. }
  assert (EX : exs i = [buffer (nid i) C] /\ cnt i = 1 /\ cell i = buffer (nid i) C).
  { assert (ED : du i = []). { apply zlen_0_nil. rewrite (zlen_du L cs B HB Hcs Hf H256 lba elba D eA eB) by (auto using sized_one). rewrite U. lia. }
    unfold Raid_Recon.exs, cnt, Raid_Recon.cell. rewrite ED. unfold eA, eB. destruct X as [[X1 X2]|[X1 X2]]; rewrite X1, X2; rewrite (proj2 (Z.ltb_lt 0 cs)) by lia; cbn [Z.ltb Z.compare app Z.mul]; change (buffer _ 0) with (@nil addr); rewrite ?app_nil_r, ?Z.add_0_r; auto. }
  destruct EX as (X1 & X2 & X3). apply (inv_read K i st); cbn [r_mem r_dv r_ex r_next concat]; auto; [now rewrite X1|lia|now rewrite app_nil_r, X3].
Qed.

Notation uelba := elba (only parsing).
Lemma D_len n : zlen (zdrop (upos n * B) D) = (elba - lba - upos n) * B.
Proof. destruct (upos_succ n) as (_ & _ & _ & _ & U). rewrite zlen_drop by nia. rewrite zlen_buffer by nia. nia. Qed.

Lemma ploc_fields i : 0 <= i < lk L -> l_disk (snd (ploc L s i)) = pd L s i /\ l_offset (snd (ploc L s i)) = po L s i /\ is_data (fst (ploc L s i)) = (i <? m) /\ (i < m -> address (fst (ploc L s i)) * cs = chk i).
Proof.
  intros Hi. unfold ploc, pd, po. cbn [fst snd]. split; [reflexivity|]. split; [reflexivity|]. rewrite pchunk_eq by assumption. rewrite chk_eq. destruct (Z.ltb_spec i m); cbn [is_data address]; split; auto; lia.
Qed.
Lemma chk_ge i : m <= i -> elba <= chk i.
Proof. destruct I as (_ & _ & I2). unfold Raid_Recon.chk. nia. Qed.

(** one round of the first pass of a degraded array *)
Lemma one_step_degraded K i st : 0 < faulted -> 0 <= i < lk L -> inv K i st -> r_buf st = zdrop (upos i * B) D ->
  exists st', one_step cs B dk ok junk faulted lba elba st (ploc L s i) = Some st' /\ inv K (i + 1) st' /\ r_buf st' = zdrop (upos (i + 1) * B) D.
Proof.
  intros F Hi J Eb. destruct (ploc_fields i Hi) as (E1 & E2 & E3 & E4). unfold one_step. cbv zeta. rewrite E1, E2, E3. destruct (upos_succ i) as (U1 & U2 & U3 & U4 & U5). pose proof (D_len i) as LD. rewrite <- Eb in LD.
  assert (Whole : ulen i = 0 -> exists st', (let* s0 := alloc st C in Some (rr (snd s0) [fst s0] (pd L s i) (po L s i * cs))) = Some st' /\ inv K (i + 1) st' /\ r_buf st' = zdrop (upos (i + 1) * B) D).
  { intros U. destruct (whole_ex K i st Hi J U) as (st1 & A1 & A2 & A3). rewrite A1. cbn [obind fst snd]. eexists. split; [reflexivity|]. split; [exact A3|]. cbn [rread r_buf]. rewrite A2, Eb, U4, U. do 2 f_equal. lia. }
  pose proof (shape i) as X. destruct (Z.ltb_spec i m) as [Hm|Hm]; cbn [negb orb].
  2:{ apply Whole. pose proof (chk_ge i Hm). clear -X H Hcs I. destruct I as (_ & I1 & _). lia. }
  rewrite (E4 Hm). clear E1 E2 E3 E4. pose proof J as (J1 & J2 & J3 & J4). pose proof (pre_inside L cs Hcs Hf H256 lba elba eA eB i I) as PI.
  assert (ED : du i = ztake (ulen i * B) (r_buf st)) by (unfold Raid_Recon.du, sub; now rewrite Eb).
  assert (EZ : zdrop (ulen i * B) (r_buf st) = zdrop (upos (i + 1) * B) D) by (rewrite Eb, zdrop_zdrop by (clear -U1 U5 HB; nia); f_equal; rewrite U4; ring).
  assert (SB : 0 <= ulen i * B <= zlen (r_buf st)). { rewrite LD. pose proof (upos_mono L cs Hcs lba elba i I) as U6. rewrite U4 in U6. clear -U1 U6 HB. nia. }
  destruct X as [X|[X|[X|[X|[X|X]]]]].
  - rewrite (proj2 (Z.leb_le _ _)) by apply X. apply Whole. apply X.
  - destruct X as (X1 & X2 & X3 & X4 & X5 & X6). rewrite (proj2 (Z.leb_gt _ _)), (proj2 (Z.ltb_lt (chk i) lba)), (proj2 (Z.ltb_lt 0 faulted)) by lia. cbn [andb].
    rewrite <- (PI ltac:(lia)). rewrite LD. assert (EM : Z.min ((cs - pre i) * B) ((elba - lba - upos i) * B) = ulen i * B) by (rewrite X3, X5, X6; clear -X1 X2 HB; rewrite Z.min_r by nia; nia). rewrite EM.
    unfold rsplit. rewrite split_to_ok by exact SB. cbn [obind fst snd]. unfold alloc at 1. cbn [r_ex r_next r_mem r_buf r_dv]. rewrite J1. cbn [obind fst snd]. rewrite <- X3. assert (EX : C - ulen i * B - pre i * B = post i * B) by (unfold col_len, Raid_Recon.ulen; ring). rewrite EX. rewrite (mul_pos_ltb B HB) by lia.
    destruct (Z.ltb_spec 0 (post i)) as [P|P].
    + unfold alloc. cbn [r_ex r_next r_mem r_buf r_dv obind fst snd]. eexists. split; [reflexivity|]. split; [|cbn [rread r_buf]; exact EZ].
      apply (inv_read K i st); cbn [r_mem r_dv r_ex r_next concat]; auto.
      * unfold Raid_Recon.exs, eA, eB. rewrite (proj2 (Z.ltb_lt 0 (pre i))), (proj2 (Z.ltb_lt 0 (post i))) by lia. rewrite J3. rewrite <- app_assoc. reflexivity.
      * unfold cnt. rewrite (proj2 (Z.ltb_lt 0 (pre i))), (proj2 (Z.ltb_lt 0 (post i))) by lia. lia.
      * unfold Raid_Recon.cell, eA, eB. rewrite (proj2 (Z.ltb_lt 0 (pre i))) by lia. rewrite J3, ED, app_nil_r. reflexivity.
    + eexists. split; [reflexivity|]. split; [|cbn [rread r_buf]; exact EZ].
      apply (inv_read K i st); cbn [r_mem r_dv r_ex r_next concat]; auto.
      * unfold Raid_Recon.exs, eA, eB. rewrite (proj2 (Z.ltb_lt 0 (pre i))), (proj2 (Z.ltb_ge 0 (post i))) by lia. rewrite J3. reflexivity.
      * unfold cnt. rewrite (proj2 (Z.ltb_lt 0 (pre i))), (proj2 (Z.ltb_ge 0 (post i))) by lia. lia.
      * unfold Raid_Recon.cell, eA, eB. assert (P0 : post i = 0) by lia. rewrite P0. rewrite J3, ED, !app_nil_r. change (buffer _ 0) with (@nil addr). now rewrite ?app_nil_r.
  - destruct X as (X1 & X2 & X3 & X4 & X5 & X6). rewrite (proj2 (Z.leb_gt _ _)), (proj2 (Z.ltb_lt (chk i) lba)), (proj2 (Z.ltb_lt 0 faulted)) by lia. cbn [andb].
    rewrite <- (PI ltac:(lia)). rewrite LD. assert (EM : Z.min ((cs - pre i) * B) ((elba - lba - upos i) * B) = ulen i * B) by (rewrite X3, X5, X6; clear -X1 X2 HB; rewrite Z.min_l by nia; nia). rewrite EM.
    unfold rsplit. rewrite split_to_ok by exact SB. cbn [obind fst snd]. unfold alloc at 1. cbn [r_ex r_next r_mem r_buf r_dv]. rewrite J1. cbn [obind fst snd]. rewrite <- X3. assert (EX : C - ulen i * B - pre i * B = post i * B) by (unfold col_len, Raid_Recon.ulen; ring). rewrite EX, X4. cbn [Z.mul Z.ltb Z.compare].
    eexists. split; [reflexivity|]. split; [|cbn [rread r_buf]; exact EZ].
    apply (inv_read K i st); cbn [r_mem r_dv r_ex r_next concat]; auto.
    + unfold Raid_Recon.exs, eA, eB. rewrite (proj2 (Z.ltb_lt 0 (pre i))) by lia. rewrite X4. rewrite J3. reflexivity.
    + unfold cnt. rewrite (proj2 (Z.ltb_lt 0 (pre i))) by lia. rewrite X4. cbn [Z.ltb Z.compare]. lia.
    + unfold Raid_Recon.cell, eA, eB. rewrite X4. rewrite J3, ED, !app_nil_r. change (buffer _ 0) with (@nil addr). now rewrite ?app_nil_r.
  - destruct X as (X1 & X2 & X3 & X4 & X5 & X6). rewrite (proj2 (Z.leb_gt _ _)), (proj2 (Z.ltb_ge (chk i) lba)), (proj2 (Z.leb_le (chk i + cs) elba)) by lia. cbn [andb].
    rewrite LD. assert (EM : Z.min C ((elba - lba - upos i) * B) = ulen i * B) by (rewrite X5, X6; clear -X1 X2 HB; unfold col_len; rewrite Z.min_l by nia; reflexivity). rewrite EM. unfold rsplit. rewrite split_to_ok by exact SB. cbn [obind fst snd].
    eexists. split; [reflexivity|]. split; [|cbn [rread r_buf]; exact EZ].
    apply (inv_read K i st); cbn [r_mem r_dv r_ex r_next concat]; auto.
    + unfold Raid_Recon.exs. rewrite X3, X4. cbn. rewrite app_nil_r. exact J1.
    + unfold cnt. rewrite X3, X4. cbn [Z.ltb Z.compare]. lia.
    + unfold Raid_Recon.cell, eA, eB. rewrite X3, X4, ED. cbn. now rewrite !app_nil_r.
  - destruct X as (X1 & X2 & X3 & X4 & X5 & X6). rewrite (proj2 (Z.leb_gt _ _)), (proj2 (Z.ltb_ge (chk i) lba)), (proj2 (Z.leb_gt (chk i + cs) elba)), (proj2 (Z.ltb_lt (chk i) elba)) by lia. cbn [andb]. rewrite (proj2 (Z.eqb_neq faulted 0)) by lia.
    rewrite LD. assert (EM : (elba - lba - upos i) * B = ulen i * B) by (rewrite X5, X6; ring). rewrite EM. unfold rsplit. rewrite split_to_ok by exact SB. cbn [obind fst snd]. unfold alloc. cbn [r_ex r_next r_mem r_buf r_dv]. rewrite J1. cbn [obind fst snd].
    assert (EX : C - ulen i * B = post i * B) by (unfold col_len, Raid_Recon.ulen; rewrite X3; ring). rewrite EX. eexists. split; [reflexivity|]. split; [|cbn [rread r_buf]; exact EZ].
    apply (inv_read K i st); cbn [r_mem r_dv r_ex r_next concat]; auto.
    + unfold Raid_Recon.exs, eB. rewrite X3. cbn [Z.ltb Z.compare app]. rewrite (proj2 (Z.ltb_lt 0 (post i))) by lia. rewrite J3, Z.add_0_r. reflexivity.
    + unfold cnt. rewrite X3. rewrite (proj2 (Z.ltb_lt 0 (post i))) by lia. cbn [Z.ltb Z.compare]. lia.
    + unfold Raid_Recon.cell, eA, eB. rewrite X3, ED. cbn. now rewrite J3, app_nil_r, Z.add_0_r.
  - destruct X as (X1 & X3 & X4 & X5 & X6). rewrite (proj2 (Z.leb_gt _ _)), (proj2 (Z.ltb_ge (chk i) lba)), (proj2 (Z.leb_gt (chk i + cs) elba)), (proj2 (Z.ltb_ge (chk i) elba)) by lia. cbn [andb]. apply Whole. exact X5.
Qed.

(** ** Error recovery *)
Notation rstep := (retry_step L cs B dk ok junk).
Lemma nth_okp n i : 0 <= i < n -> nth_error (map okp (zrange 0 n)) (Z.to_nat i) = Some (okp i).
Proof.
  intros H. rewrite (nth_error_nth' _ (okp 0)) by (rewrite map_length, zrange_length; lia). f_equal. rewrite (map_nth okp), nth_zrange by lia. f_equal. lia.
Qed.
Lemma retry_step_parity K sca old dv0 i st : m + old <= i < lk L -> 0 <= old -> inv K i st -> exists st', rstep sca old dv0 st (ploc L s i) = Some st' /\ inv K (i + 1) st'.
Proof.
  intros Hi Ho J. destruct (ploc_fields i ltac:(lia)) as (E1 & E2 & _ & _). unfold retry_step. rewrite E1, E2. unfold ploc. cbn [fst snd]. rewrite pchunk_eq by lia. rewrite (proj2 (Z.ltb_ge i m)) by lia.
  rewrite (proj2 (Z.ltb_ge (i - m) old)) by lia.
  assert (U : ulen i = 0). { pose proof (chk_ge i ltac:(lia)) as X. pose proof (shape i) as Y. clear -X Y Hcs I. destruct I as (_ & I1 & _). lia. }
  destruct (whole_ex K i st ltac:(lia) J U) as (st1 & A1 & A2 & A3). rewrite A1. cbn [obind fst snd]. eauto.
Qed.
Lemma retry_prefix old st : 0 <= old <= lf L -> r_dv st = map okp (zrange 0 (m + old)) ->
  ofold (rstep (s * m) old (map okp (zrange 0 (m + old)))) (map (ploc L s) (zrange 0 (m + old))) (Rst (r_mem st) (r_buf st) (r_ex st) [] (r_next st)) = Some st.
Proof.
  intros Ho Ed. destruct (ofold_inv (rstep (s * m) old (map okp (zrange 0 (m + old)))) (ploc L s) (fun i st' => st' = Rst (r_mem st) (r_buf st) (r_ex st) (map okp (zrange 0 i)) (r_next st)) 0 (m + old)
    (Rst (r_mem st) (r_buf st) (r_ex st) [] (r_next st))) as (st' & E & ->).
  - lia.
  - now rewrite zrange_empty by lia.
  - intros i st' Hi ->. assert (Hi' : 0 <= i < lk L) by (unfold dm in *; lia). unfold retry_step, ploc. cbn [fst snd r_mem r_buf r_ex r_dv r_next]. rewrite pchunk_eq by assumption. eexists. split; [|reflexivity].
    destruct (Z.ltb_spec i m) as [Hm|Hm].
    + rewrite (proj2 (Z.ltb_ge (s * m + i) (s * m))) by lia. replace (s * m + i - s * m) with i by lia. rewrite zlen_map, zlen_zrange by lia. rewrite (proj2 (Z.ltb_lt i _)) by lia. rewrite nth_okp by lia. now rewrite okp_snoc by lia.
    + rewrite (proj2 (Z.ltb_lt (i - m) old)) by lia. replace (m + (i - m)) with i by lia. rewrite nth_okp by lia. now rewrite okp_snoc by lia.
  - rewrite E. rewrite <- Ed. now destruct st.
Qed.
Lemma lps_eq : lps L cs = m * cs.
Proof. unfold lps. ring. Qed.
Lemma start_div : (lba - lba mod lps L cs) / cs = s * m.
Proof. rewrite lps_eq, slba_eq. apply Z.div_mul. lia. Qed.
Lemma next_div : (lba - lba mod lps L cs + lps L cs) / cs = (s + 1) * m.
Proof. rewrite lps_eq, slba_eq. replace (s * m * cs + m * cs) with ((s + 1) * m * cs) by ring. apply Z.div_mul. lia. Qed.
(** the chunks that a pass with [e] spare parity chunks covers *)
Lemma pass_iter e : 0 <= e <= lf L -> chunk_iter L (Data (s * m)) (if e <? lf L then Parity (s * m) e else Data ((s + 1) * m)) = map (ploc L s) (zrange 0 (m + e)).
Proof.
  intros He. pose proof s_nonneg. replace (Data (s * m)) with (Data (s * m + 0)) by (f_equal; lia). destruct (Z.ltb_spec e (lf L)).
  - destruct (iter_to_parity L HL s 0 e) as [E|E]; try lia. exact E.
  - rewrite (iter_to_end L HL) by lia. do 2 f_equal. unfold dm. lia.
Qed.
Lemma nerrs_okp n : 0 <= n -> nerrs_of (map okp (zrange 0 n)) = n - zlen (filter okp (zrange 0 n)).
Proof.
  intros Hn. unfold nerrs_of. rewrite filter_map_comm, zlen_map. pose proof (filter_split okp (zrange 0 n)) as F. rewrite zrange_length in F. unfold zlen. lia.
Qed.

Lemma retry_loop_ok K : forall fuel old st, 0 <= old <= lf L -> lf L - old < Z.of_nat fuel -> inv K (m + old) st ->
  exists old' st', retry_loop L cs B dk ok junk fuel (lba - lba mod lps L cs) (s * m) old st = Some st' /\ inv K (m + old') st' /\ old <= old' <= lf L /\ (nerrs_of (r_dv st') <= old' \/ lf L < nerrs_of (r_dv st')).
Proof.
  induction fuel as [|fuel IH]; intros old st Ho Hfu J; [lia|]. cbn [retry_loop]. destruct (Z.leb_spec (nerrs_of (r_dv st)) old) as [H1|H1]; [exists old, st; auto with zarith|].
  destruct (Z.ltb_spec (lf L) (nerrs_of (r_dv st))) as [H2|H2]; [exists old, st; auto with zarith|]. set (e := nerrs_of (r_dv st)) in *. rewrite start_div, next_div.
  pose proof J as (J1 & J2 & J3 & J4). rewrite (proj2 (Z.ltb_lt 0 e)) by lia. cbn [andb]. rewrite pass_iter by lia. rewrite J1. rewrite (zrange_split 0 (m + old) (m + e)) by lia. rewrite map_app, ofold_app. rewrite J2.
  pose proof (retry_prefix old st Ho J2) as RP. rewrite J1 in RP. rewrite RP. cbn [obind].
  destruct (ofold_inv (rstep (s * m) old (map okp (zrange 0 (m + old)))) (ploc L s) (inv K) (m + old) (m + e) st ltac:(lia) J) as (st' & E & J').
  { intros i st0 Hi J0. apply retry_step_parity; auto; [unfold dm in *; lia|lia]. }
  rewrite E. cbn [obind]. destruct (IH e st' ltac:(lia) ltac:(lia) J') as (old' & st'' & A1 & A2 & A3 & A4). exists old', st''. split; [exact A1|]. split; [exact A2|]. split; [lia|exact A4].
Qed.

(** ** The result *)
Definition right (mm : mem) : Prop := get mm D = map V (zrange (lba * B) (elba * B)).
Lemma cells_right mm : (forall i, 0 <= i < m -> get mm (cell i) = scol L cs B V s i) -> right mm.
Proof.
  intros H. apply (data_right L cs B HB Hcs Hf H256 lba elba D eA eB (scol L cs B V s) V mm sized_one I). intros i Hi. apply (du_right L cs B HB Hcs Hf H256 lba elba D eA eB (scol L cs B V s) V mm i sized_one I Hi); [now apply col_eq|].
  rewrite (cell_du L cs B HB Hcs Hf H256 lba elba D eA eB (scol L cs B V s) mm i sized_one I) by lia. now rewrite H.
Qed.
Definition finish (st : rst) : option (mem * bool) :=
  let nerrs := nerrs_of (r_dv st) in
  if lf L <? nerrs then Some (r_mem st, false)
  else if 0 <? nerrs then match r_ex st with None => None | Some ex => read_at_reconstruction L cs B (r_mem st) D lba ex (r_dv st) end
  else Some (r_mem st, true).
Lemma finish_ok K e st : 0 <= e <= lf L -> inv K (m + e) st -> nerrs_of (r_dv st) <= e \/ lf L < nerrs_of (r_dv st) ->
  exists mm', finish st = Some (mm', negb (lf L <? nerrs_of (r_dv st))) /\ (nerrs_of (r_dv st) <= lf L -> right mm').
Proof.
  intros He (J1 & J2 & J3 & J4) Hn. unfold finish. cbv zeta. destruct (Z.ltb_spec (lf L) (nerrs_of (r_dv st))) as [H|H]; cbn [negb].
  { exists (r_mem st). split; [reflexivity|lia]. }
  rewrite J1, J2. pose proof (nerrs_okp (m + e) ltac:(lia)) as EN. rewrite J2 in Hn, H. rewrite EN in *. destruct (Z.ltb_spec 0 (m + e - zlen (filter okp (zrange 0 (m + e))))) as [G|G].
  - destruct (reconstruct_ok L cs B HB Hcs Hf H256 lba elba D eA eB (scol L cs B V s) okp (m + e) (r_mem st) [] sized_one I good_one (distinct_one _)) as (mm' & A1 & A2 & _).
    + unfold dm in *. lia.
    + intros i Hi. apply J4; [lia|left; lia].
    + unfold dm in *. lia.
    + rewrite app_nil_r in A1. rewrite A1. exists mm'. split; [reflexivity|]. intros _. now apply cells_right.
  - exists (r_mem st). split; [reflexivity|]. intros _. apply cells_right. intros i Hi. apply J4; [lia|left; lia|].
    destruct (okp i) eqn:Ei; [reflexivity|]. exfalso. rewrite (zrange_split 0 i (m + e)) in G by lia. rewrite filter_app, zlen_app, (zrange_cons i) in G by lia. cbn [filter] in G. rewrite Ei in G.
    pose proof (count_le_length okp (zrange 0 i)) as Y0. pose proof (count_le_length okp (zrange (i + 1) (m + e))) as Y. unfold count in Y, Y0. rewrite zrange_length in Y, Y0. unfold zlen in *. lia.
Qed.
Definition failures : Z := zlen (filter (fun i => negb (okp i)) (zrange 0 (lk L))).
Lemma nerrs_failures n : 0 <= n <= lk L -> nerrs_of (map okp (zrange 0 n)) <= failures.
Proof.
  intros Hn. unfold nerrs_of, failures. rewrite filter_map_comm, zlen_map. rewrite (zrange_split 0 n (lk L)) by lia. rewrite filter_app, zlen_app. pose proof (zlen_nonneg (filter (fun i => negb (okp i)) (zrange n (lk L)))). lia.
Qed.

Notation rao mm := (read_at_one L cs B dk ok junk faulted mm ((elba - lba) * B) lba).
Lemma len_div : lba + (elba - lba) * B / B = elba.
Proof. rewrite Z.div_mul by lia. lia. Qed.
Lemma rao_eq mm : rao mm =
  (let* st := ofold (one_step cs B dk ok junk faulted lba elba) (chunk_iter L (Data ((if 0 <? faulted then lba - lba mod lps L cs else lba) / cs))
      (if (0 <? faulted) && (faulted <? lf L) then Parity (s * m) faulted else if 0 <? faulted then Data ((s + 1) * m)
       else if (elba mod lps L cs =? 0) || (lps L cs - elba mod lps L cs <? cs) then Parity (s * m) 0 else Data (div_ceil elba cs)))
      (Rst mm D (if 0 <? faulted then Some [] else None) [] 1) in
   let* st := retry_loop L cs B dk ok junk (Z.to_nat (lf L) + 2) (lba - lba mod lps L cs) ((if 0 <? faulted then lba - lba mod lps L cs else lba) / cs) faulted st in finish st).
Proof.
  unfold read_at_one. cbv zeta. rewrite len_div, start_div. destruct (Z.ltb_spec 0 faulted) as [F|F]; cbn [andb].
  - rewrite next_div. reflexivity.
  - reflexivity.
Qed.

Theorem degraded mm : 0 < faulted -> exists mm' b, rao mm = Some (mm', b) /\ (b = true -> right mm') /\ (failures <= lf L -> b = true).
Proof.
  intros F. rewrite rao_eq. rewrite (proj2 (Z.ltb_lt 0 faulted)) by lia. cbn [andb]. rewrite start_div.
  set (e := Z.min faulted (lf L)). assert (Eit : (if faulted <? lf L then Parity (s * m) faulted else Data ((s + 1) * m)) = (if e <? lf L then Parity (s * m) e else Data ((s + 1) * m))).
  { unfold e. destruct (Z.ltb_spec faulted (lf L)). { rewrite Z.min_l by lia. now rewrite (proj2 (Z.ltb_lt faulted (lf L))) by lia. } rewrite Z.min_r by lia. now rewrite Z.ltb_irrefl. }
  rewrite Eit. assert (He : 0 <= e <= lf L) by (unfold e; lia). rewrite pass_iter by lia.
  destruct (ofold_inv (one_step cs B dk ok junk faulted lba elba) (ploc L s) (fun i st => inv (fun _ => False) i st /\ r_buf st = zdrop (upos i * B) D) 0 (m + e) (Rst mm D (Some []) [] 1)) as (st & E & J & _).
  - lia.
  - split.
    + unfold inv. rewrite zrange_empty by lia. cbn [r_ex r_dv r_next r_mem map concat]. rewrite nid_0. repeat split; auto. intros i Hi [Hlt|[]]. lia.
    + cbn [r_buf]. rewrite (upos_0 L cs Hcs Hf H256 lba elba eA eB I). symmetry. now apply zdrop_0.
  - intros i st Hi [J Jb]. destruct (one_step_degraded (fun _ => False) i st F ltac:(unfold dm in *; lia) J Jb) as (st' & A & B' & C'). exists st'. auto.
  - rewrite E. cbn [obind].
    assert (R : exists e' st', retry_loop L cs B dk ok junk (Z.to_nat (lf L) + 2) (lba - lba mod lps L cs) (s * m) faulted st = Some st' /\ inv (fun _ => False) (m + e') st' /\ 0 <= e' <= lf L /\ (nerrs_of (r_dv st') <= e' \/ lf L < nerrs_of (r_dv st'))).
    { destruct (Z_lt_ge_dec faulted (lf L)) as [Hlt|Hge].
      - assert (e = faulted) by (unfold e; lia). destruct (retry_loop_ok (fun _ => False) (Z.to_nat (lf L) + 2) faulted st ltac:(lia) ltac:(lia)) as (e' & st' & A1 & A2 & A3 & A4); [congruence|]. exists e', st'. split; [exact A1|]. split; [exact A2|]. split; [lia|exact A4].
      - assert (e = lf L) by (unfold e; lia). exists e, st. replace (Z.to_nat (lf L) + 2)%nat with (Datatypes.S (Z.to_nat (lf L) + 1)) by lia. cbn [retry_loop]. destruct (Z.leb_spec (nerrs_of (r_dv st)) faulted).
        + split; [reflexivity|]. split; [exact J|]. split; [lia|]. lia.
        + rewrite (proj2 (Z.ltb_lt (lf L) (nerrs_of (r_dv st)))) by lia. split; [reflexivity|]. split; [exact J|]. split; [lia|]. lia. }
    destruct R as (e' & st' & -> & J' & He' & Hn). cbn [obind]. destruct (finish_ok _ e' st' He' J' Hn) as (mm' & A1 & A2). rewrite A1. eexists _, _. split; [reflexivity|]. split.
    + intros Hb. apply A2. apply negb_true_iff, Z.ltb_ge in Hb. exact Hb.
    + intros Hfl. apply negb_true_iff, Z.ltb_ge. destruct J' as (_ & -> & _). pose proof (nerrs_failures (m + e') ltac:(unfold dm in *; lia)). lia.
Qed.

(** ** A healthy array *)
(** the data chunks that the range touches *)
Definition i0 : Z := lba / cs - s * m.
Definition i1 : Z := div_ceil elba cs - s * m.
Lemma ceil_bounds : elba <= div_ceil elba cs * cs < elba + cs.
Proof. unfold div_ceil. pose proof (Z.div_mod (elba + cs - 1) cs ltac:(lia)). pose proof (Z.mod_pos_bound (elba + cs - 1) cs Hcs). nia. Qed.
Lemma chk_i0 : chk i0 <= lba < chk i0 + cs.
Proof. rewrite chk_eq. unfold i0. pose proof (Z.div_mod lba cs ltac:(lia)). pose proof (Z.mod_pos_bound lba cs Hcs). nia. Qed.
Lemma chk_i1 : elba <= chk i1 < elba + cs.
Proof. rewrite chk_eq. unfold i1. pose proof ceil_bounds. nia. Qed.
Lemma chk_succ i j : chk j = chk i + (j - i) * cs.
Proof. unfold Raid_Recon.chk. ring. Qed.
Lemma chk_start : chk 0 <= lba /\ elba <= chk m.
Proof. destruct I as (I0 & I1 & I2). unfold Raid_Recon.chk. pose proof (Z.mod_pos_bound lba (m * cs) ltac:(nia)). lia. Qed.
Lemma i01 : 0 <= i0 < i1 /\ i1 <= m.
Proof.
  pose proof chk_i0 as A. pose proof chk_i1 as A1. pose proof chk_start as A2. pose proof (chk_succ 0 i0) as A3. pose proof (chk_succ i0 i1) as A4. pose proof (chk_succ m i1) as A5. destruct I as (I0 & I1 & I2).
  generalize dependent (chk i0). generalize dependent (chk i1). generalize dependent (chk 0). generalize dependent (chk m). intros c1 c2 X c3 X1 X2 c4 X3 X4 X5. clear -X X1 X2 X3 X4 X5 Hcs I1. repeat split; nia.
Qed.
Lemma touched i : i0 <= i < i1 <-> chk i < elba /\ lba < chk i + cs.
Proof.
  pose proof chk_i0 as A. pose proof chk_i1 as A1. pose proof (chk_succ i0 i) as A3. pose proof (chk_succ i1 i) as A4.
  generalize dependent (chk i0). generalize dependent (chk i1). generalize dependent (chk i). intros c c1 X X1 c2 X2 X3. clear -X X1 X2 X3 Hcs. split; [|split]; nia.
Qed.
(** whether the first read of a chunk, which begins at the range, succeeds *)
Definition okh (i : Z) : bool := ok (pd L s i) (po L s i * cs + pre i).
Definition hinv (n : Z) (st : rst) : Prop :=
  r_buf st = zdrop (upos n * B) D /\ r_ex st = None /\ r_next st = 1 /\ r_dv st = map okh (zrange i0 n) /\
  (forall i, i0 <= i < n -> okh i = true -> get (r_mem st) (du i) = sub (pre i * B) (ulen i * B) (scol L cs B V s i)).
Lemma NoDup_du i : NoDup (du i).
Proof. rewrite du_eq. apply FinFun.Injective_map_NoDup; [intros x y E; congruence|apply NoDup_zrange]. Qed.
Lemma du_disjoint i j a : i <> j -> In a (du i) -> ~ In a (du j).
Proof.
  intros Hne H1 H2. rewrite du_eq in H1, H2. apply in_map_iff in H1, H2. destruct H1 as (x & <- & Hx). destruct H2 as (y & Ey & Hy). assert (x = y) by congruence. subst y. apply in_zrange in Hx, Hy.
  assert (X : i + 1 <= j \/ j + 1 <= i) by lia. destruct X as [X|X]; apply upos_mono_le in X; nia.
Qed.
Lemma hinv_read i st : i0 <= i < i1 -> hinv i st ->
  hinv (i + 1) (rr (Rst (r_mem st) (zdrop (ulen i * B) (r_buf st)) (r_ex st) (r_dv st) (r_next st)) [ztake (ulen i * B) (r_buf st)] (pd L s i) (po L s i * cs + pre i)).
Proof.
  intros Hi (J1 & J2 & J3 & J4 & J5). pose proof i01 as II. destruct (upos_succ i) as (U1 & U2 & U3 & U4 & U5). unfold hinv, rread. cbv zeta. cbn [r_buf r_ex r_next r_dv r_mem].
  assert (ED : ztake (ulen i * B) (r_buf st) = du i) by (unfold Raid_Recon.du, sub; now rewrite J1). rewrite ED.
  split; [rewrite J1, zdrop_zdrop by (clear -U1 U5 HB; nia); f_equal; rewrite U4; ring|]. split; [exact J2|]. split; [exact J3|]. split.
  { rewrite (zrange_snoc i0 (i + 1)) by lia. replace (i + 1 - 1) with i by lia. rewrite map_app, J4, child_readv_res. reflexivity. }
  intros j Hj Hk. destruct (Z.eq_dec j i) as [->|Hne].
  - pose proof (child_readv_ok B dk ok junk (r_mem st) [du i] (pd L s i) (po L s i * cs + pre i)) as R. cbn [concat] in R. rewrite app_nil_r in R. etransitivity; [exact (R (NoDup_du i) Hk)|].
    rewrite (zlen_du L cs B HB Hcs Hf H256 lba elba D eA eB i sized_one I). assert (Hik : 0 <= i < lk L) by lia. apply touched in Hi. assert (Pcs : pre i < cs). { pose proof (shape i) as X. clear -X Hi Hcs. destruct X as [X|[X|[X|[X|[X|X]]]]]; lia. }
    rewrite <- (Hst i (po L s i * cs + pre i)); [|exact Hik|generalize (po L s i); intros o; clear -Pcs U2; nia|exact Hk]. rewrite <- map_sub. unfold Raid_Recon.ulen in *. rewrite zrange_sub by (unfold col_len; clear -U1 U2 U3 Pcs HB; nia). rewrite !Z.add_0_l. 
    pose proof (map_zrange_shift (fun j => dk (pd L s i) (po L s i * C + j)) (pre i * B) 0 ((cs - pre i - post i) * B)) as MS. rewrite Z.add_0_r in MS. rewrite MS. apply map_ext. intros j. f_equal. unfold col_len. generalize (po L s i). intros o. ring.
  - rewrite <- J5 by (auto; lia). apply get_ext. intros a Ha. apply child_readv_other. cbn [concat]. rewrite app_nil_r. now apply (du_disjoint j i a).
Qed.
Lemma one_step_healthy i st : faulted = 0 -> i0 <= i < i1 -> hinv i st -> exists st', one_step cs B dk ok junk faulted lba elba st (ploc L s i) = Some st' /\ hinv (i + 1) st'.
Proof.
  intros F Hi J. pose proof i01 as II. pose proof (hinv_read i st Hi J) as HR. pose proof J as (Eb & J2 & J3 & J4 & J5). destruct (ploc_fields i ltac:(lia)) as (E1 & E2 & E3 & E4). unfold one_step. cbv zeta. rewrite E1, E2, E3, F. destruct (upos_succ i) as (U1 & U2 & U3 & U4 & U5). pose proof (D_len i) as LD. rewrite <- Eb in LD.
  rewrite (proj2 (Z.ltb_lt i m)) by lia. cbn [negb orb]. rewrite (E4 ltac:(lia)). pose proof (pre_inside L cs Hcs Hf H256 lba elba eA eB i I) as PI. apply touched in Hi. destruct Hi as [T1 T2].
  assert (SB : 0 <= ulen i * B <= zlen (r_buf st)). { rewrite LD. pose proof (upos_mono L cs Hcs lba elba i I) as U6. rewrite U4 in U6. clear -U1 U6 HB. nia. }
  rewrite (proj2 (Z.leb_gt _ _)) by exact T2. cbn [Z.ltb Z.compare]. rewrite andb_false_r. pose proof (shape i) as X. destruct (Z.ltb_spec (chk i) lba) as [C1|C1].
  - rewrite <- (PI ltac:(clear -X C1 T1 T2; lia)). rewrite LD. assert (EM : Z.min ((cs - pre i) * B) ((elba - lba - upos i) * B) = ulen i * B).
    { assert (Y : (cs - pre i = ulen i /\ ulen i <= elba - lba - upos i) \/ (elba - lba - upos i = ulen i /\ ulen i <= cs - pre i)) by (clear -X C1 T1 T2; lia). clear -Y HB. destruct Y as [[-> Y]|[-> Y]]; [apply Z.min_l; nia|apply Z.min_r; nia]. }
    rewrite EM. unfold rsplit. rewrite split_to_ok by exact SB. cbn [obind fst snd]. eauto.
  - assert (P0 : pre i = 0) by (clear -X C1 T1 T2; lia). rewrite P0, Z.add_0_r in HR. destruct (Z.leb_spec (chk i + cs) elba) as [C2|C2].
    + rewrite LD. assert (EM : Z.min C ((elba - lba - upos i) * B) = ulen i * B). { assert (Y : cs = ulen i /\ ulen i <= elba - lba - upos i) by (clear -X C1 C2 T1 T2; lia). unfold col_len. destruct Y as [Y1 Y2]. rewrite Y1 at 1. clear -Y2 HB. apply Z.min_l. nia. }
      rewrite EM. unfold rsplit. rewrite split_to_ok by exact SB. cbn [obind fst snd]. eauto.
    + rewrite (proj2 (Z.ltb_lt (chk i) elba)) by exact T1. cbn [Z.eqb andb]. rewrite LD. assert (EM : (elba - lba - upos i) * B = ulen i * B) by (f_equal; clear -X C1 C2 T1 T2; lia). rewrite EM. unfold rsplit. rewrite split_to_ok by exact SB. cbn [obind fst snd]. eauto.
Qed.
Lemma healthy_iter : chunk_iter L (Data (lba / cs)) (if (elba mod lps L cs =? 0) || (lps L cs - elba mod lps L cs <? cs) then Parity (s * m) 0 else Data (div_ceil elba cs)) = map (ploc L s) (zrange i0 i1).
Proof.
  pose proof i01 as II. pose proof s_nonneg as Hs. replace (lba / cs) with (s * m + i0) by (unfold i0; lia). replace (div_ceil elba cs) with (s * m + i1) by (unfold i1; lia). rewrite lps_eq.
  pose proof chk_i1 as K1. pose proof chk_start as K2. destruct I as (I0 & I1 & I2). rewrite slba_eq in I2.
  assert (LB : s * m * cs <= lba) by (pose proof slba_eq; pose proof (Z.mod_pos_bound lba (m * cs) ltac:(nia)); lia).
  assert (X : (elba = (s + 1) * (m * cs) /\ elba mod (m * cs) = 0) \/ (elba < (s + 1) * (m * cs) /\ elba mod (m * cs) = elba - s * m * cs /\ elba mod (m * cs) <> 0)).
  { destruct (Z.eq_dec elba ((s + 1) * (m * cs))) as [E|E]; [left|right].
    - split; [exact E|]. rewrite E. apply Z.mod_mul. nia.
    - assert (Hl : elba < (s + 1) * (m * cs)) by (clear -E I2; nia). split; [exact Hl|]. assert (EM : elba mod (m * cs) = elba - s * m * cs). { symmetry. apply (Z.mod_unique elba (m * cs) s); [left; clear -Hl LB I1; nia|ring]. } split; [exact EM|]. rewrite EM. lia. }
  assert (MC : i1 = m \/ i1 < m) by lia. pose proof (chk_succ m i1) as K3. assert (K4 : chk m = (s + 1) * (m * cs)) by (rewrite chk_eq; ring).
  destruct ((elba mod (m * cs) =? 0) || (m * cs - elba mod (m * cs) <? cs)) eqn:T.
  - assert (E1 : i1 = m). { destruct MC as [E|E]; [exact E|exfalso]. apply orb_true_iff in T. rewrite Z.eqb_eq, Z.ltb_lt in T. assert (chk i1 <= chk m - cs) by (clear -K3 E Hcs; nia). clear -X T K1 K4 H I1 Hcs E K3. destruct X as [[X1 X2]|(X1 & X2 & X3)]; [lia|]. destruct T as [T|T]; [lia|]. nia. }
    clear X T MC. destruct (iter_to_parity L HL s i0 0) as [E|E]; [exact Hs|clear -II; lia|clear -II; lia|clear -Hf; lia| |clear -II E; lia]. rewrite E. do 2 f_equal. rewrite E1. lia.
  - apply orb_false_iff in T. rewrite Z.eqb_neq, Z.ltb_ge in T. assert (HI : i1 < m) by (destruct MC as [E|E]; [exfalso; rewrite E in K1; clear -X T K1 K4; nia|exact E]). clear X T MC. apply (iter_to_data L HL); clear -II HI Hs; lia.
Qed.
Definition hfailures : Z := zlen (filter (fun i => negb (okh i)) (zrange i0 i1)).
(** the state after the first pass *)
Lemma healthy_first mm : faulted = 0 -> exists st, hinv i1 st /\ rao mm = (let* st := retry_loop L cs B dk ok junk (Z.to_nat (lf L) + 2) (lba - lba mod lps L cs) (lba / cs) 0 st in finish st).
Proof.
  intros F. rewrite rao_eq, F. cbn [Z.ltb Z.compare andb]. rewrite healthy_iter. pose proof i01 as II.
  destruct (ofold_inv (one_step cs B dk ok junk faulted lba elba) (ploc L s) hinv i0 i1 (Rst mm D None [] 1)) as (st & E & J).
  - lia.
  - unfold hinv. rewrite zrange_empty by lia. cbn [r_buf r_ex r_next r_dv r_mem map]. repeat split; auto; [|intros; lia]. pose proof (shape i0) as X. pose proof chk_i0 as K. assert (U : upos i0 = 0) by (clear -X K I Hcs; destruct I as (_ & I1 & _); lia). rewrite U. symmetry. now apply zdrop_0.
  - intros i st Hi J. now apply one_step_healthy.
  - rewrite F in E. rewrite E. cbn [obind]. exists st. split; [exact J|reflexivity].
Qed.
Lemma hnerrs st : hinv i1 st -> nerrs_of (r_dv st) = hfailures.
Proof. intros (_ & _ & _ & -> & _). unfold nerrs_of, hfailures. now rewrite filter_map_comm, zlen_map. Qed.
Lemma filter_zlen0 {A} (p : A -> bool) l x : zlen (filter p l) = 0 -> In x l -> p x = false.
Proof. intros H Hx. apply zlen_0_nil in H. destruct (p x) eqn:E; [|reflexivity]. exfalso. assert (In x (filter p l)) by (apply filter_In; auto). rewrite H in *. contradiction. Qed.

(** no error: the range is read straight into the caller's buffer *)
Theorem healthy_clean mm : faulted = 0 -> hfailures = 0 -> exists mm', rao mm = Some (mm', true) /\ right mm'.
Proof.
  intros F Hz. destruct (healthy_first mm F) as (st & J & ->). pose proof (hnerrs st J) as EN. replace (Z.to_nat (lf L) + 2)%nat with (Datatypes.S (Z.to_nat (lf L) + 1)) by lia. cbn [retry_loop]. rewrite EN, Hz. cbn [Z.leb Z.compare obind]. unfold finish. cbv zeta. rewrite EN, Hz.
  rewrite (proj2 (Z.ltb_ge (lf L) 0)) by lia. cbn [Z.ltb Z.compare]. exists (r_mem st). split; [reflexivity|]. destruct J as (_ & _ & _ & _ & J5).
  apply (data_right L cs B HB Hcs Hf H256 lba elba D eA eB (scol L cs B V s) V (r_mem st) sized_one I). intros i Hi. destruct (Z_lt_ge_dec i i0) as [H0|H0]; [|destruct (Z_lt_ge_dec i i1) as [H1|H1]].
  2:{ apply (du_right L cs B HB Hcs Hf H256 lba elba D eA eB (scol L cs B V s) V (r_mem st) i sized_one I Hi); [now apply col_eq|]. apply J5; [lia|]. assert (X := filter_zlen0 _ _ i Hz ltac:(apply in_zrange; lia)). now apply negb_false_iff in X. }
  all: assert (U : ulen i = 0) by (assert (NT : ~ (i0 <= i < i1)) by lia; rewrite touched in NT; pose proof (shape i) as X; clear -X NT Hcs I; destruct I as (_ & I1 & _); lia).
  all: assert (ED : du i = []) by (apply zlen_0_nil; rewrite (zlen_du L cs B HB Hcs Hf H256 lba elba D eA eB i sized_one I), U; lia).
  all: rewrite ED, U, Z.add_0_r, zrange_empty by lia; reflexivity.
Qed.

(** more errors than the parity can correct: an error *)
Theorem healthy_too_many mm : faulted = 0 -> lf L < hfailures -> exists mm', rao mm = Some (mm', false).
Proof.
  intros F Hz. destruct (healthy_first mm F) as (st & J & ->). pose proof (hnerrs st J) as EN. replace (Z.to_nat (lf L) + 2)%nat with (Datatypes.S (Z.to_nat (lf L) + 1)) by lia. cbn [retry_loop]. rewrite EN. rewrite (proj2 (Z.leb_gt _ _)), (proj2 (Z.ltb_lt _ _)) by lia. cbn [obind]. unfold finish. cbv zeta. rewrite EN, (proj2 (Z.ltb_lt _ _)) by lia. eauto.
Qed.

(** whole chunks: errors are recovered *)
Lemma aligned_touched i : lba mod cs = 0 -> elba mod cs = 0 -> i0 <= i < i1 -> pre i = 0 /\ post i = 0 /\ ulen i = cs.
Proof.
  intros A1 A2 Hi. apply touched in Hi. pose proof (pre_inside L cs Hcs Hf H256 lba elba eA eB i I) as P. pose proof (post_inside L cs Hcs Hf H256 lba elba eA eB i I) as Q. pose proof (shape i) as X. destruct I as (_ & I1 & _). destruct Hi as [T1 T2].
  assert (P0 : ~ 0 < pre i < cs) by (intros H; specialize (P H); lia). assert (Q0 : ~ 0 < post i < cs) by (intros H; destruct (Q H); lia). clear P Q. unfold Raid_Recon.ulen in *. clear -X P0 Q0 T1 T2 I1 Hcs. lia.
Qed.
Definition known (i : Z) : Prop := i0 <= i < i1.
Lemma retry_first_aligned st0 dv0 i st : lba mod cs = 0 -> elba mod cs = 0 -> dv0 = map okp (zrange i0 i1) -> st0 = s * m + i0 -> 0 <= i < lk L -> inv known i st -> exists st', rstep st0 0 dv0 st (ploc L s i) = Some st' /\ inv known (i + 1) st'.
Proof.
  intros A1 A2 Ed Es Hi J. pose proof i01 as II. destruct (Z_lt_ge_dec i m) as [Hm|Hm]; [|now apply retry_step_parity; [lia|lia|]].
  destruct (ploc_fields i ltac:(lia)) as (E1 & E2 & _ & _). unfold retry_step. rewrite E1, E2. unfold ploc. cbn [fst snd]. rewrite pchunk_eq by lia. rewrite (proj2 (Z.ltb_lt i m)) by lia. rewrite Es, Ed.
  destruct (Z_lt_ge_dec i i0) as [H0|H0]; [|destruct (Z_lt_ge_dec i i1) as [H1|H1]].
  2:{ rewrite (proj2 (Z.ltb_ge _ _)) by lia. replace (s * m + i - (s * m + i0)) with (i - i0) by lia. rewrite zlen_map, zlen_zrange by lia. rewrite (proj2 (Z.ltb_lt _ _)) by lia.
      assert (NE : nth_error (map okp (zrange i0 i1)) (Z.to_nat (i - i0)) = Some (okp i)). { rewrite (nth_error_nth' _ (okp 0)) by (rewrite map_length, zrange_length; lia). f_equal. rewrite (map_nth okp), nth_zrange by lia. f_equal. lia. }
      rewrite NE. eexists. split; [reflexivity|]. destruct (aligned_touched i A1 A2 ltac:(lia)) as (Z1 & Z2 & Z3). destruct J as (J1 & J2 & J3 & J4). unfold inv. cbn [r_ex r_dv r_next r_mem]. split; [|split; [|split]].
      - rewrite J1, exs_snoc by lia. unfold Raid_Recon.exs at 3. rewrite Z1, Z2. cbn [Z.ltb Z.compare app]. now rewrite app_nil_r.
      - rewrite J2, okp_snoc by lia. reflexivity.
      - rewrite J3, nid_succ by lia. unfold cnt. rewrite Z1, Z2. cbn [Z.ltb Z.compare]. lia.
      - intros j Hj HK Hk. apply J4; auto. destruct (Z.eq_dec j i) as [->|]; [right; unfold known; lia|]. destruct HK as [HK|HK]; [left; lia|now right]. }
  all: assert (U : ulen i = 0) by (assert (NT : ~ (i0 <= i < i1)) by lia; rewrite touched in NT; pose proof (shape i) as X; clear -X NT Hcs I; destruct I as (_ & I1 & _); lia).
  all: destruct (whole_ex known i st ltac:(lia) J U) as (st1 & B1 & B2 & B3).
  - rewrite (proj2 (Z.ltb_lt _ _)) by lia. rewrite B1. cbn [obind fst snd]. eauto.
  - rewrite (proj2 (Z.ltb_ge _ _)) by lia. rewrite zlen_map, zlen_zrange by lia. rewrite (proj2 (Z.ltb_ge _ _)) by lia. rewrite B1. cbn [obind fst snd]. eauto.
Qed.
Theorem healthy_aligned mm : faulted = 0 -> lba mod cs = 0 -> elba mod cs = 0 -> exists mm' b, rao mm = Some (mm', b) /\ (b = true -> right mm') /\ (failures <= lf L -> b = true).
Proof.
  intros F A1 A2. pose proof i01 as II. assert (EO : forall i, i0 <= i < i1 -> okh i = okp i). { intros i Hi. unfold okh, okp. destruct (aligned_touched i A1 A2 Hi) as (-> & _). now rewrite Z.add_0_r. }
  destruct (Z.eq_dec hfailures 0) as [Z0|NZ]. { destruct (healthy_clean mm F Z0) as (mm' & E & R). exists mm', true. auto. }
  assert (HP : 0 <= hfailures) by apply zlen_nonneg.
  assert (FH : hfailures <= failures). { unfold failures, hfailures. rewrite (zrange_split 0 i0 (lk L)), (zrange_split i0 i1 (lk L)) by lia. rewrite !filter_app, !zlen_app. rewrite (filter_ext_in (fun i => negb (okh i)) (fun i => negb (okp i))) by (intros i Hi; apply in_zrange in Hi; now rewrite EO). pose proof (zlen_nonneg (filter (fun i => negb (okp i)) (zrange 0 i0))). pose proof (zlen_nonneg (filter (fun i => negb (okp i)) (zrange i1 (lk L)))). lia. }
  destruct (Z_lt_ge_dec (lf L) hfailures) as [HG|HG]. { destruct (healthy_too_many mm F HG) as (mm' & E). exists mm', false. split; [exact E|]. split; [discriminate|lia]. }
  destruct (healthy_first mm F) as (st & J & ->). pose proof (hnerrs st J) as EN. replace (Z.to_nat (lf L) + 2)%nat with (Datatypes.S (Z.to_nat (lf L) + 1)) by lia. cbn [retry_loop]. rewrite EN. rewrite (proj2 (Z.leb_gt _ _)), (proj2 (Z.ltb_ge _ _)) by lia. rewrite start_div, next_div. rewrite (proj2 (Z.ltb_lt 0 hfailures)) by lia. cbn [andb]. rewrite pass_iter by lia.
  destruct J as (J1 & J2 & J3 & J4 & J5). rewrite J2. assert (ED : r_dv st = map okp (zrange i0 i1)) by (rewrite J4; apply map_ext_in; intros i Hi; apply in_zrange in Hi; now apply EO).
  destruct (ofold_inv (rstep (lba / cs) 0 (r_dv st)) (ploc L s) (inv known) 0 (m + hfailures) (Rst (r_mem st) (r_buf st) (Some []) [] (r_next st))) as (st' & E & J').
  - lia.
  - unfold inv. rewrite zrange_empty by lia. cbn [r_ex r_dv r_next r_mem map concat]. rewrite nid_0. repeat split; auto. intros i Hi [Hlt|Hk]; [lia|]. intros Ho. destruct (aligned_touched i A1 A2 Hk) as (Z1 & Z2 & Z3).
    assert (EC : cell i = du i). { unfold Raid_Recon.cell, eA, eB. rewrite Z1, Z2. cbn [Z.mul]. change (buffer _ 0) with (@nil addr). now rewrite app_nil_r. }
    rewrite EC. rewrite J5; [|exact Hk|now rewrite EO]. rewrite Z1, Z3. cbn [Z.mul]. apply sub_all. rewrite (zlen_col L cs B HB Hcs Hf H256 lba eA eB (scol L cs B V s) i good_one) by (unfold known in Hk; lia). unfold col_len. lia.
  - intros i st' Hi. apply retry_first_aligned; auto; [unfold i0; lia|unfold dm in *; lia].
  - rewrite E. cbn [obind]. destruct (retry_loop_ok known (Z.to_nat (lf L) + 1) hfailures st' ltac:(lia) ltac:(lia) J') as (e' & st'' & B1 & B2 & B3 & B4). rewrite B1. cbn [obind].
    destruct (finish_ok _ e' st'' ltac:(lia) B2 B4) as (mm' & C1 & C2). rewrite C1. eexists _, _. split; [reflexivity|]. split.
    + intros Hb. apply C2. apply negb_true_iff, Z.ltb_ge in Hb. exact Hb.
    + intros Hfl. apply negb_true_iff, Z.ltb_ge. destruct B2 as (_ & -> & _). pose proof (nerrs_failures (m + e') ltac:(unfold dm in *; lia)). lia.
Qed.

(** part of a chunk: an error makes the read panic *)
Lemma filter_more {A} (p q : A -> bool) l x : (forall y, In y l -> q y = true -> p y = true) -> In x l -> p x = true -> q x = false -> zlen (filter q l) + 1 <= zlen (filter p l).
Proof.
  assert (W : forall l, (forall y, In y l -> q y = true -> p y = true) -> zlen (filter q l) <= zlen (filter p l)).
  { clear. induction l as [|y l IH]; intros H; cbn [filter]; [lia|]. specialize (IH (fun z Hz => H z (or_intror Hz))). pose proof (H y (or_introl eq_refl)) as Hy. destruct (q y), (p y); rewrite ?zlen_cons; try lia. }
  induction l as [|y l IH]; intros H Hx Px Qx; [contradiction|]. cbn [filter]. destruct Hx as [->|Hx].
  - rewrite Px, Qx, zlen_cons. specialize (W l (fun z Hz => H z (or_intror Hz))). lia.
  - specialize (IH (fun z Hz => H z (or_intror Hz)) Hx Px Qx). pose proof (H y (or_introl eq_refl)) as Hy. destruct (q y), (p y); rewrite ?zlen_cons; try lia.
Qed.
Definition nonfull (j : Z) : bool := negb ((lba <=? chk j) && (chk j + cs <=? elba)).
Lemma recon_cols_consumes c0 c2 data ex i pcs data' ex' : recon_cols cs B c0 c2 lba elba (lba - lba mod (m * cs)) data ex i = Some (pcs, data', ex') ->
  zlen ex' + (if nonfull i then 1 else 0) <= zlen ex.
Proof.
  unfold recon_cols, nonfull, oassert, obind. fold (chk i).
  destruct (Z.leb_spec (chk i + cs) lba).
  { rewrite (proj2 (Z.leb_gt lba (chk i))) by lia. cbn [andb negb]. destruct ex; [discriminate|]. injection 1 as <- <- <-. rewrite zlen_cons. lia. }
  destruct (Z.ltb_spec (chk i) lba).
  { rewrite (proj2 (Z.leb_gt lba (chk i))) by lia. cbn [andb negb]. destruct (0 <? c0); [|discriminate]. destruct ex as [|e ex]; [discriminate|]. destruct (split_to _ data); [|discriminate].
    destruct (negb _); [destruct ex as [|e2 ex]; [discriminate|]|]; injection 1 as <- <- <-; rewrite !zlen_cons; lia. }
  rewrite (proj2 (Z.leb_le lba (chk i))) by lia. cbn [andb]. destruct (Z.leb_spec (chk i + cs) elba); cbn [negb].
  { destruct (split_to C data); [|discriminate]. injection 1 as <- <- <-. lia. }
  destruct (chk i <? elba); [destruct (0 <? c2); [|discriminate]|]; (destruct ex as [|e ex]; [discriminate|]); injection 1 as <- <- <-; rewrite zlen_cons; lia.
Qed.
Lemma recon_loop_consumes c0 c1 c2 : forall v data ex i zs, recon_loop cs B c0 c1 c2 lba elba (lba - lba mod (m * cs)) data ex i v = Some zs ->
  zlen (filter nonfull (zrange i (i + zlen v))) <= zlen ex.
Proof.
  induction v as [|r v IH]; intros data ex i zs; cbn [recon_loop].
  - intros _. rewrite zlen_nil, zrange_empty by lia. cbn [filter]. rewrite zlen_nil. apply zlen_nonneg.
  - destruct (recon_cols _ _ _ _ _ _ _ _ _ _) as [[[pcs d'] ex']|] eqn:E; [|discriminate]. cbn [obind fst snd]. destruct (append_cols _ _ _ _); [|discriminate]. cbn [obind]. destruct (recon_loop _ _ _ _ _ _ _ _ d' ex' (i + 1) v) as [zs'|] eqn:E2; [|discriminate]. intros _.
    apply IH in E2. apply recon_cols_consumes in E. rewrite zlen_cons. pose proof (zlen_nonneg v). rewrite zrange_cons by lia. replace (i + (1 + zlen v)) with (i + 1 + zlen v) by lia. cbn [filter]. destruct (nonfull i); rewrite ?zlen_cons; lia.
Qed.
Definition in01 (i : Z) : bool := (i0 <=? i) && (i <? i1).
Lemma in01_spec i : in01 i = true <-> i0 <= i < i1.
Proof. unfold in01. rewrite andb_true_iff, Z.leb_le, Z.ltb_lt. tauto. Qed.
Definition okr (i : Z) : bool := if in01 i then okh i else okp i.
Definition uinv (n : Z) (st : rst) : Prop := exists ex, r_ex st = Some ex /\ zlen ex = zlen (filter (fun i => negb (in01 i)) (zrange 0 n)) /\ r_dv st = map okr (zrange 0 n).
Lemma again_uinv i st : 0 <= i < lk L -> in01 i = false -> uinv i st -> exists st', (let* s0 := alloc st C in Some (rr (snd s0) [fst s0] (pd L s i) (po L s i * cs))) = Some st' /\ uinv (i + 1) st'.
Proof.
  intros Hi H01 (ex & E1 & E2 & E3). unfold alloc. rewrite E1. cbn [obind fst snd]. eexists. split; [reflexivity|]. unfold rread. cbv zeta. eexists. cbn [r_ex r_dv]. split; [reflexivity|].
  rewrite (zrange_snoc 0 (i + 1)) by lia. replace (i + 1 - 1) with i by lia. rewrite filter_app, map_app, !zlen_app. cbn [filter map]. rewrite H01. cbn [negb]. rewrite E3, child_readv_res, E2. unfold okr at 3. rewrite H01. split; reflexivity.
Qed.
Lemma retry_first_unaligned dv0 sca i st : dv0 = map okh (zrange i0 i1) -> sca = s * m + i0 -> 0 <= i < lk L -> uinv i st -> exists st', rstep sca 0 dv0 st (ploc L s i) = Some st' /\ uinv (i + 1) st'.
Proof.
  intros Ed Es Hi J. pose proof i01 as II. destruct (ploc_fields i Hi) as (E1 & E2 & _ & _). unfold retry_step. rewrite E1, E2. unfold ploc. cbn [fst snd]. rewrite pchunk_eq by lia.
  assert (Ag := again_uinv i st Hi). destruct (Z.ltb_spec i m) as [Hm|Hm].
  2:{ rewrite (proj2 (Z.ltb_ge (i - m) 0)) by lia. apply Ag; [|exact J]. apply not_true_iff_false. rewrite in01_spec. lia. }
  rewrite Es, Ed. destruct (Z_lt_ge_dec i i0) as [H0|H0]; [|destruct (Z_lt_ge_dec i i1) as [H1|H1]].
  - rewrite (proj2 (Z.ltb_lt _ _)) by lia. apply Ag; [|exact J]. apply not_true_iff_false. rewrite in01_spec. lia.
  - rewrite (proj2 (Z.ltb_ge _ _)) by lia. replace (s * m + i - (s * m + i0)) with (i - i0) by lia. rewrite zlen_map, zlen_zrange by lia. rewrite (proj2 (Z.ltb_lt _ _)) by lia.
    assert (NE : nth_error (map okh (zrange i0 i1)) (Z.to_nat (i - i0)) = Some (okh i)). { rewrite (nth_error_nth' _ (okh 0)) by (rewrite map_length, zrange_length; lia). f_equal. rewrite (map_nth okh), nth_zrange by lia. f_equal. lia. }
    rewrite NE. eexists. split; [reflexivity|]. destruct J as (ex & J1 & J2 & J3). exists ex. cbn [r_ex r_dv]. split; [exact J1|]. rewrite (zrange_snoc 0 (i + 1)) by lia. replace (i + 1 - 1) with i by lia. rewrite filter_app, map_app, zlen_app. cbn [filter map].
    assert (H01 : in01 i = true) by (apply in01_spec; lia). rewrite H01. cbn [negb]. rewrite J3. unfold okr at 3. rewrite H01. split; [rewrite J2; change (zlen (@nil Z)) with 0; lia|reflexivity].
  - rewrite (proj2 (Z.ltb_ge (s * m + i) (s * m + i0))) by lia. rewrite zlen_map, zlen_zrange by lia. rewrite (proj2 (Z.ltb_ge (s * m + i - (s * m + i0)) (i1 - i0))) by lia. apply Ag; [|exact J]. apply not_true_iff_false. rewrite in01_spec. lia.
Qed.
Lemma retry_prefix_okr old st : 0 <= old <= lf L -> r_dv st = map okr (zrange 0 (m + old)) ->
  ofold (rstep (s * m) old (map okr (zrange 0 (m + old)))) (map (ploc L s) (zrange 0 (m + old))) (Rst (r_mem st) (r_buf st) (r_ex st) [] (r_next st)) = Some st.
Proof.
  intros Ho Ed. destruct (ofold_inv (rstep (s * m) old (map okr (zrange 0 (m + old)))) (ploc L s) (fun i st' => st' = Rst (r_mem st) (r_buf st) (r_ex st) (map okr (zrange 0 i)) (r_next st)) 0 (m + old)
    (Rst (r_mem st) (r_buf st) (r_ex st) [] (r_next st))) as (st' & E & ->).
  - lia.
  - now rewrite zrange_empty by lia.
  - assert (NE : forall i, 0 <= i < m + old -> nth_error (map okr (zrange 0 (m + old))) (Z.to_nat i) = Some (okr i)).
    { intros i H. rewrite (nth_error_nth' _ (okr 0)) by (rewrite map_length, zrange_length; lia). f_equal. rewrite (map_nth okr), nth_zrange by lia. f_equal. lia. }
    intros i st' Hi ->. assert (Hi' : 0 <= i < lk L) by (unfold dm in *; lia). unfold retry_step, ploc. cbn [fst snd r_mem r_buf r_ex r_dv r_next]. rewrite pchunk_eq by assumption. eexists. split; [|reflexivity].
    assert (SN : map okr (zrange 0 (i + 1)) = map okr (zrange 0 i) ++ [okr i]) by (rewrite (zrange_snoc 0 (i + 1)) by lia; replace (i + 1 - 1) with i by lia; now rewrite map_app).
    destruct (Z.ltb_spec i m) as [Hm|Hm].
    + rewrite (proj2 (Z.ltb_ge (s * m + i) (s * m))) by lia. replace (s * m + i - s * m) with i by lia. rewrite zlen_map, zlen_zrange by lia. rewrite (proj2 (Z.ltb_lt i _)) by lia. rewrite NE by lia. now rewrite SN.
    + rewrite (proj2 (Z.ltb_lt (i - m) old)) by lia. replace (m + (i - m)) with i by lia. rewrite NE by lia. now rewrite SN.
  - rewrite E. rewrite <- Ed. now destruct st.
Qed.
Lemma nerrs_okr n : nerrs_of (map okr (zrange 0 n)) = zlen (filter (fun i => negb (okr i)) (zrange 0 n)).
Proof. unfold nerrs_of. now rewrite filter_map_comm, zlen_map. Qed.
Lemma nerrs_okr_split a b : 0 <= a <= b -> nerrs_of (map okr (zrange 0 b)) = nerrs_of (map okr (zrange 0 a)) + zlen (filter (fun i => negb (okr i)) (zrange a b)).
Proof. intros H. rewrite !nerrs_okr. rewrite (zrange_split 0 a b) by lia. now rewrite filter_app, zlen_app. Qed.

Lemma unaligned_touched : ~ (lba mod cs = 0 /\ elba mod cs = 0) -> exists x, i0 <= x < i1 /\ nonfull x = true.
Proof.
  intros H. pose proof i01 as II. pose proof chk_i0 as K0. pose proof chk_i1 as K1. destruct (Z.eq_dec (lba mod cs) 0) as [E|E].
  - exists (i1 - 1). split; [lia|]. unfold nonfull. pose proof (chk_mod L cs Hcs Hf H256 lba eA eB i1) as M. pose proof (chk_succ (i1 - 1) i1) as S1. assert (NE : chk i1 <> elba) by (intros X; rewrite X in M; tauto). rewrite (proj2 (Z.leb_gt (chk (i1 - 1) + cs) elba)) by (clear -S1 NE K1; lia). now rewrite andb_false_r.
  - exists i0. split; [lia|]. unfold nonfull. pose proof (chk_mod L cs Hcs Hf H256 lba eA eB i0) as M. assert (NE : chk i0 <> lba) by (intros X; rewrite X in M; tauto). rewrite (proj2 (Z.leb_gt lba (chk i0))) by (clear -NE K0; lia). reflexivity.
Qed.
Lemma nonfull_outside j : in01 j = false -> nonfull j = true.
Proof.
  intros H. assert (NT : ~ (i0 <= j < i1)) by (intros X; apply in01_spec in X; congruence). rewrite touched in NT. unfold nonfull. destruct I as (_ & I1 & _). clear -NT Hcs I1. destruct (Z.leb_spec lba (chk j)), (Z.leb_spec (chk j + cs) elba); cbn [andb negb]; auto. exfalso. lia.
Qed.
Lemma finish_panics old st : ~ (lba mod cs = 0 /\ elba mod cs = 0) -> 0 < old <= lf L -> uinv (m + old) st -> nerrs_of (r_dv st) = old -> okr (m + old - 1) = true -> finish st = None.
Proof.
  intros NA Ho (ex & E1 & E2 & E3) EN Hlast. unfold finish. cbv zeta. rewrite EN. rewrite (proj2 (Z.ltb_ge (lf L) old)), (proj2 (Z.ltb_lt 0 old)) by lia. rewrite E1, E3. unfold read_at_reconstruction.
  assert (OK : zlen (filter okr (zrange 0 (m + old))) = m). { rewrite E3 in EN. rewrite nerrs_okr in EN. pose proof (filter_split okr (zrange 0 (m + old))) as F. rewrite zrange_length in F. unfold zlen in *. lia. }
  destruct (needed_some L Hf lba eA eB (scol L cs B V s) okr (m + old) ltac:(lia) ltac:(lia)) as (need & N1 & N2 & N3). rewrite N1.
  assert (EQ : need = m + old).
  { destruct (Z.eq_dec need (m + old)) as [|NE]; [assumption|exfalso]. rewrite (zrange_snoc 0 (m + old)) in OK by lia. rewrite (zrange_split 0 need (m + old - 1)) in OK by lia. rewrite !filter_app, !zlen_app in OK. cbn [filter] in OK. rewrite Hlast in OK. rewrite zlen_cons in OK. change (zlen (@nil Z)) with 0 in OK. pose proof (zlen_nonneg (filter okr (zrange need (m + old - 1)))). lia. }
  rewrite EQ. rewrite (proj2 (Z.leb_gt (m + old) m)) by lia. cbv zeta. assert (EL : lba + zlen D / B = elba). { destruct sized_one as [-> _]. rewrite Z.div_mul by lia. lia. } rewrite EL.
  assert (LV : zlen (map okr (zrange 0 (m + old))) = m + old) by (rewrite zlen_map, zlen_zrange; lia). rewrite ztake_all by lia.
  match goal with |- obind ?x _ = None => destruct x as [zs|] eqn:RL end; [exfalso|reflexivity]. apply recon_loop_consumes in RL. rewrite LV, Z.add_0_l, E2 in RL. destruct (unaligned_touched NA) as (x & X1 & X2). pose proof i01 as II.
  pose proof (filter_more nonfull (fun i => negb (in01 i)) (zrange 0 (m + old)) x) as FM. specialize (FM ltac:(intros y _ Hy; apply negb_true_iff in Hy; now apply nonfull_outside) ltac:(apply in_zrange; lia) X2 ltac:(apply negb_false_iff, in01_spec; exact X1)). lia.
Qed.
Lemma retry_loop_unaligned : forall fuel old st, 0 < old <= lf L -> lf L - old < Z.of_nat fuel -> uinv (m + old) st -> old <= nerrs_of (r_dv st) -> (nerrs_of (r_dv st) = old -> okr (m + old - 1) = true) ->
  exists old' st', retry_loop L cs B dk ok junk fuel (lba - lba mod lps L cs) (s * m) old st = Some st' /\ uinv (m + old') st' /\ old <= old' <= lf L /\ (lf L < nerrs_of (r_dv st') \/ (nerrs_of (r_dv st') = old' /\ okr (m + old' - 1) = true)).
Proof.
  induction fuel as [|fuel IH]; intros old st Ho Hfu J Hge Hlast; [lia|]. cbn [retry_loop]. destruct (Z.leb_spec (nerrs_of (r_dv st)) old) as [H1|H1]. { exists old, st. split; [reflexivity|]. split; [exact J|]. split; [lia|]. right. split; [lia|]. apply Hlast. lia. }
  destruct (Z.ltb_spec (lf L) (nerrs_of (r_dv st))) as [H2|H2]. { exists old, st. split; [reflexivity|]. split; [exact J|]. split; [lia|]. now left. }
  set (e := nerrs_of (r_dv st)) in *. rewrite start_div, next_div. destruct J as (ex & J1 & J2 & J3). rewrite (proj2 (Z.ltb_lt 0 e)) by lia. cbn [andb]. rewrite pass_iter by lia. rewrite J1. rewrite (zrange_split 0 (m + old) (m + e)) by lia. rewrite map_app, ofold_app. rewrite J3.
  pose proof (retry_prefix_okr old st ltac:(lia) J3) as RP. rewrite J1 in RP. rewrite RP. cbn [obind].
  destruct (ofold_inv (rstep (s * m) old (map okr (zrange 0 (m + old)))) (ploc L s) uinv (m + old) (m + e) st ltac:(lia)) as (st' & E & J').
  { exists ex. auto. }
  { intros i st0 Hi J0. assert (Hi' : m <= i < lk L) by (unfold dm in *; lia). pose proof i01 as II. destruct (ploc_fields i ltac:(lia)) as (F1 & F2 & _ & _). unfold retry_step. rewrite F1, F2. unfold ploc. cbn [fst snd]. rewrite pchunk_eq by lia. rewrite (proj2 (Z.ltb_ge i m)) by lia. rewrite (proj2 (Z.ltb_ge (i - m) old)) by lia. apply again_uinv; [lia| |exact J0]. apply not_true_iff_false. rewrite in01_spec. lia. }
  rewrite E. cbn [obind]. pose proof J' as (ex' & _ & _ & J3'). pose proof (nerrs_okr_split (m + old) (m + e) ltac:(lia)) as SP. rewrite <- J3, <- J3' in SP. fold e in SP. 
  destruct (IH e st' ltac:(lia) ltac:(lia) J') as (old' & st'' & A1 & A2 & A3 & A4).
  - pose proof (zlen_nonneg (filter (fun i => negb (okr i)) (zrange (m + old) (m + e)))). lia.
  - intros EE. assert (Z0 : zlen (filter (fun i => negb (okr i)) (zrange (m + old) (m + e))) = 0) by lia. apply (filter_zlen0 _ _ (m + e - 1)) in Z0; [now apply negb_false_iff in Z0|apply in_zrange; lia].
  - exists old', st''. split; [exact A1|]. split; [exact A2|]. split; [lia|exact A4].
Qed.
(** failures, counting the first read of the chunks that the range touches *)
Definition rfailures : Z := zlen (filter (fun i => negb (okr i)) (zrange 0 (lk L))).
Theorem healthy_unaligned mm : faulted = 0 -> ~ (lba mod cs = 0 /\ elba mod cs = 0) -> 0 < hfailures ->
  (rao mm = None \/ exists mm', rao mm = Some (mm', false)) /\ (rfailures <= lf L -> rao mm = None).
Proof.
  intros F NA Hh. pose proof i01 as II.
  assert (EH : hfailures = zlen (filter (fun i => negb (okr i)) (zrange i0 i1))). { unfold hfailures. f_equal. apply filter_ext_in. intros i Hi. apply in_zrange in Hi. unfold okr. now rewrite (proj2 (in01_spec i)) by lia. }
  assert (SP : forall n, i1 <= n -> nerrs_of (map okr (zrange 0 n)) = hfailures + zlen (filter (fun i => negb (okr i)) (zrange 0 i0)) + zlen (filter (fun i => negb (okr i)) (zrange i1 n))).
  { intros n Hn. rewrite nerrs_okr, EH. rewrite (zrange_split 0 i0 n), (zrange_split i0 i1 n) by lia. rewrite !filter_app, !zlen_app. lia. }
  assert (NN : forall n, 0 <= n <= lk L -> nerrs_of (map okr (zrange 0 n)) <= rfailures).
  { intros n Hn. unfold rfailures. rewrite nerrs_okr, (zrange_split 0 n (lk L)) by lia. rewrite filter_app, zlen_app. pose proof (zlen_nonneg (filter (fun i => negb (okr i)) (zrange n (lk L)))). lia. }
  destruct (Z_lt_ge_dec (lf L) hfailures) as [HG|HG].
  { destruct (healthy_too_many mm F HG) as (mm' & E). split; [right; eauto|]. intros HR. exfalso. pose proof (NN (lk L) ltac:(lia)) as X. rewrite (SP (lk L) ltac:(lia)) in X. pose proof (zlen_nonneg (filter (fun i => negb (okr i)) (zrange 0 i0))). pose proof (zlen_nonneg (filter (fun i => negb (okr i)) (zrange i1 (lk L)))). lia. }
  destruct (healthy_first mm F) as (st & J & ->). pose proof (hnerrs st J) as EN. replace (Z.to_nat (lf L) + 2)%nat with (Datatypes.S (Z.to_nat (lf L) + 1)) by lia. cbn [retry_loop]. rewrite EN. rewrite (proj2 (Z.leb_gt _ _)), (proj2 (Z.ltb_ge _ _)) by lia. rewrite start_div, next_div. rewrite (proj2 (Z.ltb_lt 0 hfailures)) by lia. cbn [andb]. rewrite pass_iter by lia.
  destruct J as (J1 & J2 & J3 & J4 & J5). rewrite J2.
  destruct (ofold_inv (rstep (lba / cs) 0 (r_dv st)) (ploc L s) uinv 0 (m + hfailures) (Rst (r_mem st) (r_buf st) (Some []) [] (r_next st))) as (st' & E & J').
  - lia.
  - exists []. rewrite zrange_empty by lia. auto.
  - intros i st' Hi. apply retry_first_unaligned; [exact J4|unfold i0; lia|unfold dm in *; lia].
  - rewrite E. cbn [obind]. pose proof J' as (ex' & _ & _ & J3'). pose proof (SP (m + hfailures) ltac:(lia)) as S1. rewrite <- J3' in S1.
    pose proof (zlen_nonneg (filter (fun i => negb (okr i)) (zrange 0 i0))) as P1. pose proof (zlen_nonneg (filter (fun i => negb (okr i)) (zrange i1 (m + hfailures)))) as P2.
    destruct (retry_loop_unaligned (Z.to_nat (lf L) + 1) hfailures st' ltac:(lia) ltac:(lia) J') as (e' & st'' & B1 & B2 & B3 & B4).
    + lia.
    + intros EE. assert (Z0 : zlen (filter (fun i => negb (okr i)) (zrange i1 (m + hfailures))) = 0) by lia. apply (filter_zlen0 _ _ (m + hfailures - 1)) in Z0; [now apply negb_false_iff in Z0|apply in_zrange; lia].
    + rewrite B1. cbn [obind]. destruct B4 as [B4|[B4 B5]].
      * assert (EF : finish st'' = Some (r_mem st'', false)) by (unfold finish; cbv zeta; now rewrite (proj2 (Z.ltb_lt _ _)) by lia). rewrite EF. split; [right; eauto|]. intros HR. exfalso. destruct B2 as (? & _ & _ & B2). rewrite B2 in B4. pose proof (NN (m + e') ltac:(unfold dm in *; lia)). lia.
      * rewrite (finish_panics e' st'' NA ltac:(lia) B2 B4 B5). auto.
Qed.

End One.
