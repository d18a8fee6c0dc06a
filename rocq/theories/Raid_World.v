(** What a stripe should contain, and where: vocabulary for the proofs about the RAID data path. *)
From Verif Require Import Common FSM_Model PrimeS_Model PrimeS_Props Codec_Model Codec_Props Raid_Model Raid_Recon.

Section World.
Context (L : layout) (cs B : Z) (HL : legal L) (HB : 0 < B) (Hcs : 0 < cs).
Notation m := (dm L).
Notation C := (col_len cs B).
Lemma legal_fk : 0 < lf L < lk L.
Proof. apply HL. Qed.
Lemma m_range : 0 < m < lk L.
Proof. pose proof legal_fk. unfold dm. lia. Qed.

(** chunk [i] of stripe [s]; its disk and row *)
Definition pchunk (s i : Z) : chunkid := nth_chunk L (s * lk L + i).
Definition pd (s i : Z) : Z := l_disk (id2loc L (pchunk s i)).
Definition po (s i : Z) : Z := l_offset (id2loc L (pchunk s i)).
Lemma pchunk_eq s i : 0 <= i < lk L -> pchunk s i = if i <? m then Data (s * m + i) else Parity (s * m) (i - m).
Proof. intros H. unfold pchunk, nth_chunk. cbv zeta. fold (dm L). rewrite (Z.add_comm (s * lk L) i), Z.div_add, Z.mod_add by lia. rewrite Z.div_small, Z.mod_small by lia. reflexivity. Qed.
Lemma pchunk_exists s i : 0 <= s -> 0 <= i < lk L -> chunk_exists L (pchunk s i) /\ chunk_number L (pchunk s i) = s * lk L + i.
Proof. intros Hs Hi. apply (proj1 (C04_numbering L HL)). nia. Qed.
Lemma number_data s i : 0 <= i < m -> chunk_number L (Data (s * m + i)) = s * lk L + i.
Proof. intros Hi. unfold chunk_number. cbv zeta. fold (dm L). rewrite (Z.add_comm (s * m) i), Z.div_add, Z.mod_add by lia. rewrite Z.div_small, Z.mod_small by lia. lia. Qed.
Lemma number_parity s p : chunk_number L (Parity (s * m) p) = s * lk L + m + p.
Proof. unfold chunk_number. cbv zeta. fold (dm L). rewrite Z.div_mul by (pose proof m_range; lia). lia. Qed.
Lemma chunk_iter_eq a b : chunk_exists L a -> chunk_exists L b -> chunk_number L a <= chunk_number L b ->
  chunk_iter L a b = map (fun p => (nth_chunk L p, id2loc L (nth_chunk L p))) (zrange (chunk_number L a) (chunk_number L b)).
Proof. intros Ha Hb Hle. unfold chunk_iter. change (chunk_pos L b) with (chunk_number L b). change (chunk_pos L a) with (chunk_number L a). rewrite (C04_iterator_agrees L a b HL Ha Hb Hle). reflexivity. Qed.
Lemma map_zrange_shift {A} (g : Z -> A) a lo hi : map g (zrange (a + lo) (a + hi)) = map (fun i => g (a + i)) (zrange lo hi).
Proof.
  unfold zrange. replace (a + hi - (a + lo)) with (hi - lo) by lia. generalize (Z.to_nat (hi - lo)) as n. intros n. revert lo. induction n as [|n IH]; intros lo; cbn [zseq map]; [reflexivity|]. f_equal. rewrite <- (IH (lo + 1)). do 2 f_equal. lia.
Qed.
Definition ploc (s i : Z) : chunkid * chunkloc := (pchunk s i, id2loc L (pchunk s i)).
(** the iterator over positions [lo, hi) of stripe [s]: [hi] is named by a parity chunk, or by the next stripe's first chunk *)
Lemma iter_to_parity s lo p : 0 <= s -> 0 <= lo <= m -> lo < m \/ 0 < p -> 0 <= p < lf L -> chunk_iter L (Data (s * m + lo)) (Parity (s * m) p) = map (ploc s) (zrange lo (m + p)) \/ lo = m.
Proof.
  intros Hs Hlo Hx Hp. destruct (Z.eq_dec lo m); [now right|left]. pose proof m_range. rewrite chunk_iter_eq.
  - rewrite number_data, number_parity by lia. rewrite <- Z.add_assoc. apply (map_zrange_shift (fun p => (nth_chunk L p, id2loc L (nth_chunk L p)))).
  - cbn. nia.
  - cbn. fold (dm L). split; [nia|]. split; [now exists s|lia].
  - rewrite number_data, number_parity by lia. lia.
Qed.
Lemma iter_to_data s lo hi : 0 <= s -> 0 <= lo < m -> lo <= hi < m -> chunk_iter L (Data (s * m + lo)) (Data (s * m + hi)) = map (ploc s) (zrange lo hi).
Proof.
  intros Hs Hlo Hhi. pose proof m_range. rewrite chunk_iter_eq.
  - rewrite !number_data by lia. apply (map_zrange_shift (fun p => (nth_chunk L p, id2loc L (nth_chunk L p)))).
  - cbn. nia.
  - cbn. nia.
  - rewrite !number_data by lia. lia.
Qed.
Lemma iter_to_end s lo : 0 <= s -> 0 <= lo < m -> chunk_iter L (Data (s * m + lo)) (Data ((s + 1) * m)) = map (ploc s) (zrange lo (lk L)).
Proof.
  intros Hs Hlo. pose proof m_range. replace ((s + 1) * m) with ((s + 1) * m + 0) by lia. rewrite chunk_iter_eq.
  - rewrite !number_data by lia. replace ((s + 1) * lk L + 0) with (s * lk L + lk L) by ring. apply (map_zrange_shift (fun p => (nth_chunk L p, id2loc L (nth_chunk L p)))).
  - cbn. nia.
  - cbn. nia.
  - rewrite !number_data by lia. lia.
Qed.

(** * What the array should contain *)
(** [V] is the array as one long sequence of bytes *)
Context (V : Z -> Z).
Definition dcol (a : Z) : list Z := map V (zrange (a * C) ((a + 1) * C)).
Definition content (x : chunkid) : list Z :=
  match x with
  | Data a => dcol a
  | Parity a p => nth (Z.to_nat p) (encode (Z.to_nat (lk L)) (Z.to_nat (lf L)) (Z.to_nat C) (map (fun j => dcol (a + j)) (zrange 0 m))) []
  end.
Definition scol (s i : Z) : list Z := content (pchunk s i).
Lemma scol_data s i : 0 <= i < m -> scol s i = dcol (s * m + i).
Proof. intros H. pose proof m_range. unfold scol. rewrite pchunk_eq by lia. rewrite (proj2 (Z.ltb_lt i m)) by lia. reflexivity. Qed.
Lemma scol_good s : (forall x, 0 <= V x < 256) -> 0 <= s -> good_stripe L cs B (scol s).
Proof.
  intros HV Hs. pose proof m_range as M. assert (E : map (scol s) (zrange 0 m) = map (fun j => dcol (s * m + j)) (zrange 0 m)) by (apply map_ext_in; intros i Hi; apply in_zrange in Hi; now apply scol_data).
  split.
  - rewrite E. split; [rewrite map_length, zrange_length; lia|]. apply Forall_map. apply Forall_forall. intros i _. split.
    + unfold dcol. rewrite map_length, zrange_length. lia.
    + unfold dcol. apply Forall_map. apply Forall_forall. intros x _. apply HV.
  - intros p Hp. rewrite E. unfold scol. rewrite pchunk_eq by (unfold dm in *; lia). rewrite (proj2 (Z.ltb_ge (m + p) m)) by lia. cbn [content]. repeat f_equal. lia.
Qed.
End World.
