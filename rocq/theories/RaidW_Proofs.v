(** What the RAID vdev's writes leave on the disks. *)
From Verif Require Import Common FSM_Model PrimeS_Model PrimeS_Props Codec_Model Codec_GF Codec_Props SG_Model SG_Props Raid_Model Raid_Recon Raid_World Raid_One Raid_Multi RaidW_Model.
Local Opaque id2loc nth_chunk.

(** ** A batch of writes to different disks *)
Section Batch.
Context (B : Z) (HB : 0 < B) (wok : Z -> Z -> bool) (wjunk : disks).
(** a write: disk, LBA, bytes *)
Notation wr3 := (Z * Z * list Z)%type.
Definition wd (w : wr3) : Z := fst (fst w).
Definition wl (w : wr3) : Z := snd (fst w).
Definition wv (w : wr3) : list Z := snd w.
Definition covers (w : wr3) (d o : Z) : bool := (d =? wd w) && (wl w * B <=? o) && (o <? wl w * B + zlen (wv w)).
Fixpoint batch (dk : disks) (ws : list wr3) : disks * list bool :=
  match ws with
  | [] => (dk, [])
  | w :: ws => let dr := child_write B wok wjunk dk (wd w) (wl w) (wv w) in let r := batch (fst dr) ws in (fst r, snd dr :: snd r)
  end.
Lemma batch_app dk a b : batch dk (a ++ b) = (fst (batch (fst (batch dk a)) b), snd (batch dk a) ++ snd (batch (fst (batch dk a)) b)).
Proof. revert dk. induction a as [|w a IH]; intros dk; cbn [app batch]; [cbn [fst snd app]; apply surjective_pairing|]. cbv zeta. rewrite IH. reflexivity. Qed.
Lemma batch_results dk ws : snd (batch dk ws) = map (fun w => wok (wd w) (wl w)) ws.
Proof. revert dk. induction ws as [|w ws IH]; intros dk; cbn [batch map]; [reflexivity|]. cbv zeta. cbn [snd fst]. f_equal; [|apply IH]. unfold child_write. destruct (wok (wd w) (wl w)); reflexivity. Qed.
Lemma child_write_other dk w d o : covers w d o = false -> fst (child_write B wok wjunk dk (wd w) (wl w) (wv w)) d o = dk d o.
Proof. intros H. unfold child_write, covers in *. destruct (wok _ _); cbn [fst]; now rewrite H. Qed.
Lemma batch_other ws : forall dk d o, (forall w, In w ws -> covers w d o = false) -> fst (batch dk ws) d o = dk d o.
Proof.
  induction ws as [|w ws IH]; intros dk d o H; cbn [batch]; [reflexivity|]. cbv zeta. cbn [fst]. rewrite IH by (intros; apply H; now right). apply child_write_other. apply H. now left.
Qed.
Lemma covers_disk w d o : covers w d o = true -> wd w = d.
Proof. unfold covers. intros H. apply andb_prop in H. destruct H as [H _]. apply andb_prop in H. destruct H as [H _]. apply Z.eqb_eq in H. now symmetry. Qed.
Lemma batch_ok ws : forall dk w j, NoDup (map wd ws) -> In w ws -> wok (wd w) (wl w) = true -> 0 <= j < zlen (wv w) -> fst (batch dk ws) (wd w) (wl w * B + j) = nth (Z.to_nat j) (wv w) 0.
Proof.
  induction ws as [|w0 ws IH]; intros dk w j ND Hin Hok Hj; [contradiction|]. cbn [map] in ND. inversion ND as [|? ? N1 N2]; subst. cbn [batch]. cbv zeta. cbn [fst]. destruct Hin as [->|Hin]; [|now apply IH].
  rewrite batch_other.
  - unfold child_write. rewrite Hok. cbn [fst]. rewrite Z.eqb_refl. rewrite (proj2 (Z.leb_le _ _)), (proj2 (Z.ltb_lt _ _)) by lia. cbn [andb]. f_equal. lia.
  - intros w' Hw'. destruct (covers w' (wd w) (wl w * B + j)) eqn:E; [|reflexivity]. exfalso. apply covers_disk in E. apply N1. rewrite <- E. now apply in_map.
Qed.
Definition failed_of (ws : list wr3) : list Z := map wd (filter (fun w => negb (wok (wd w) (wl w))) ws).
Lemma failed_NoDup ws : NoDup (map wd ws) -> NoDup (failed_of ws).
Proof.
  unfold failed_of. induction ws as [|w ws IH]; cbn [map filter]; intros ND; [constructor|]. inversion ND as [|? ? N1 N2]; subst. destruct (negb _); [|auto]. cbn [map]. constructor; [|auto]. intros H. apply N1. apply in_map_iff in H. destruct H as (w' & E & Hw). apply filter_In in Hw. rewrite <- E. apply in_map. apply Hw.
Qed.
Lemma failed_count dk ws : zlen (filter negb (snd (batch dk ws))) = zlen (failed_of ws).
Proof. rewrite batch_results. unfold failed_of. rewrite zlen_map. induction ws as [|w ws IH]; cbn [map filter]; [reflexivity|]. destruct (wok (wd w) (wl w)); cbn [negb]; [exact IH|]. rewrite !zlen_cons. now rewrite IH. Qed.
Lemma failed_in ws d : In d (failed_of ws) -> exists w, In w ws /\ wd w = d /\ wok d (wl w) = false.
Proof. unfold failed_of. intros H. apply in_map_iff in H. destruct H as (w & <- & Hw). apply filter_In in Hw. destruct Hw as [H1 H2]. exists w. split; [exact H1|]. split; [reflexivity|]. now apply negb_true_iff in H2. Qed.
Lemma not_failed ws w : In w ws -> ~ In (wd w) (failed_of ws) -> wok (wd w) (wl w) = true.
Proof. intros Hin HN. destruct (wok (wd w) (wl w)) eqn:E; [reflexivity|]. exfalso. apply HN. unfold failed_of. apply in_map. apply filter_In. split; [exact Hin|]. now rewrite E. Qed.
End Batch.

(** columns of equal length *)
Lemma concat_len {A} (C : Z) (ls : list (list A)) : Forall (fun l => zlen l = C) ls -> zlen (concat ls) = zlen ls * C.
Proof. induction 1 as [|l ls H _ IH]; cbn [concat]; [reflexivity|]. rewrite zlen_app, zlen_cons, H, IH. ring. Qed.
Lemma nth_concat {A} (C : Z) (ls : list (list A)) (i j : Z) (d : A) : Forall (fun l => zlen l = C) ls -> 0 <= i < zlen ls -> 0 <= j < C ->
  nth (Z.to_nat (i * C + j)) (concat ls) d = nth (Z.to_nat j) (nth (Z.to_nat i) ls []) d.
Proof.
  intros H. revert i. induction H as [|l ls H HF IH]; intros i Hi Hj; [unfold zlen in Hi; cbn in Hi; lia|]. cbn [concat]. rewrite zlen_cons in Hi. destruct (Z.eq_dec i 0) as [->|NE].
  - rewrite app_nth1 by (unfold zlen in H; lia). reflexivity.
  - rewrite app_nth2 by (unfold zlen in H; nia). replace (Z.to_nat i) with (S (Z.to_nat (i - 1))) by lia. cbn [nth]. rewrite <- IH by lia. f_equal. unfold zlen in H. nia.
Qed.
Lemma sub_map_zrange (V : Z -> Z) lo a n N : 0 <= a -> 0 <= n -> a + n <= N -> ztake n (zdrop a (map V (zrange lo (lo + N)))) = map V (zrange (lo + a) (lo + a + n)).
Proof.
  intros Ha Hn HN. rewrite (zrange_split lo (lo + a) (lo + N)) by lia. rewrite map_app. rewrite zdrop_app by lia. rewrite (zdrop_all a) by (rewrite zlen_map; unfold zlen; rewrite zrange_length; lia).
  rewrite zlen_map. replace (zlen (zrange lo (lo + a))) with a by (unfold zlen; rewrite zrange_length; lia). rewrite zdrop_0 by lia. cbn [app]. rewrite (zrange_split (lo + a) (lo + a + n) (lo + N)) by lia. rewrite map_app, ztake_app by lia.
  rewrite ztake_all by (rewrite zlen_map; unfold zlen; rewrite zrange_length; lia). rewrite zlen_map. replace (zlen (zrange (lo + a) (lo + a + n))) with n by (unfold zlen; rewrite zrange_length; lia). rewrite Z.sub_diag, ztake_0 by lia. apply app_nil_r.
Qed.

Section Write.
Context (L : layout) (cs B : Z) (HL : legal L) (HB : 0 < B) (Hcs : 0 < cs) (wok : Z -> Z -> bool) (wjunk : disks) (V : Z -> Z).
Notation m := (dm L).
Notation k := (lk L).
Notation C := (col_len cs B).
Let Hf := legal_fk L HL.
Let MP := m_range L HL.
Lemma C_pos : 0 < C.
Proof. unfold col_len. nia. Qed.
Lemma content_len t i : 0 <= i < k -> zlen (content L cs B V (pchunk L t i)) = C.
Proof.
  intros Hi. pose proof C_pos. unfold zlen. rewrite pchunk_eq by assumption. destruct (Z.ltb_spec i m); cbn [content].
  - unfold dcol. rewrite map_length, zrange_length. nia.
  - rewrite encode_col_length by (unfold dm in *; lia). lia.
Qed.
Lemma nth_chunk_p p : 0 <= p -> nth_chunk L p = pchunk L (p / k) (p mod k).
Proof. intros Hp. unfold pchunk. f_equal. pose proof (Z.div_mod p k ltac:(lia)). lia. Qed.
Lemma content_len_p p : 0 <= p -> zlen (content L cs B V (nth_chunk L p)) = C.
Proof. intros Hp. rewrite nth_chunk_p by assumption. apply content_len. apply Z.mod_pos_bound. lia. Qed.
Context (s n : Z) (Hs : 0 <= s) (Hn : 0 < n).
Notation a := (s * k).
Notation e := ((s + n) * k).
Definition outcome (dk dk' : disks) (b : bool) : Prop := exists failed,
  NoDup failed /\ (forall d, In d failed -> (exists l, wok d l = false) /\ exists p, a <= p < e /\ pdN L p = d) /\ b = negb (lf L <? zlen failed) /\
  (forall p j, a <= p < e -> ~ In (pdN L p) failed -> 0 <= j < C -> dk' (pdN L p) (poN L p * C + j) = nth (Z.to_nat j) (content L cs B V (nth_chunk L p)) 0) /\
  (forall d o, (forall p, a <= p < e -> ~ (pdN L p = d /\ poN L p = o / C)) -> dk' d o = dk d o).
Lemma batch_outcome dk ws : NoDup (map wd ws) ->
  (forall p, a <= p < e -> exists w r0, In w ws /\ wd w = pdN L p /\ wl w = r0 * cs /\ r0 <= poN L p /\ (poN L p - r0 + 1) * C <= zlen (wv w) /\
     forall j, 0 <= j < C -> nth (Z.to_nat ((poN L p - r0) * C + j)) (wv w) 0 = nth (Z.to_nat j) (content L cs B V (nth_chunk L p)) 0) ->
  (forall w, In w ws -> (exists p, a <= p < e /\ pdN L p = wd w) /\ forall o, covers B w (wd w) o = true -> exists p, a <= p < e /\ pdN L p = wd w /\ poN L p = o / C) ->
  outcome dk (fst (batch B wok wjunk dk ws)) (verdict L (snd (batch B wok wjunk dk ws))).
Proof.
  intros ND H1 H2. exists (failed_of wok ws). split; [now apply failed_NoDup|]. split.
  { intros d Hd. apply failed_in in Hd. destruct Hd as (w & W1 & W2 & W3). split; [eauto|]. destruct (H2 w W1) as [(p & P1 & P2) _]. exists p. split; [exact P1|congruence]. }
  split; [unfold verdict; now rewrite failed_count|]. split.
  - intros p j Hp HN Hj. destruct (H1 p Hp) as (w & r0 & W1 & W2 & W3 & W4 & W5 & W6). rewrite <- W6 by assumption. rewrite <- W2. rewrite <- (batch_ok B wok wjunk ws dk w ((poN L p - r0) * C + j) ND W1).
    + f_equal. rewrite W3. unfold col_len. ring.
    + apply (not_failed wok ws w W1). now rewrite W2.
    + pose proof C_pos. nia.
  - intros d o Ho. apply batch_other. intros w Hw. destruct (covers B w d o) eqn:E; [|reflexivity]. exfalso. pose proof (covers_disk B w d o E) as ED. rewrite <- ED in E. destruct (proj2 (H2 w Hw) o E) as (p & P1 & P2 & P3). apply (Ho p P1). split; [congruence|exact P3].
Qed.
Lemma issue_batch lba : lba mod cs = 0 -> forall locs cols dk first, (length cols <= length locs)%nat ->
  issue cs B wok wjunk dk first cols locs lba = Some (batch B wok wjunk dk (map (fun lc => (l_disk (snd (fst lc)), l_offset (snd (fst lc)) * cs, snd lc)) (combine locs cols))).
Proof.
  intros HA. induction locs as [|[x loc] locs IH]; intros cols dk first HL2; destruct cols as [|c cols]; cbn [length] in HL2; try lia; cbn [issue combine map batch]; try reflexivity. cbn [snd fst wd wl wv]. rewrite HA, Z.add_0_r. replace (if first then l_offset loc * cs else l_offset loc * cs) with (l_offset loc * cs) by now destruct first. rewrite IH by lia. cbn [obind]. reflexivity.
Qed.

(** ** One stripe *)
Definition ws1 (t lo hi : Z) : list (Z * Z * list Z) := map (fun i => (pd L t i, po L t i * cs, scol L cs B V t i)) (zrange lo hi).
Lemma combine_map {A X Y} (g : A -> X) (h : A -> Y) l : combine (map g l) (map h l) = map (fun i => (g i, h i)) l.
Proof. induction l as [|x l IH]; cbn [map combine]; [reflexivity|]. now rewrite IH. Qed.
Lemma issue_ws1 t lo hi lba dk : lba mod cs = 0 -> issue cs B wok wjunk dk true (map (scol L cs B V t) (zrange lo hi)) (map (ploc L t) (zrange lo hi)) lba = Some (batch B wok wjunk dk (ws1 t lo hi)).
Proof.
  intros HA. rewrite issue_batch by (rewrite ?map_length; auto). do 2 f_equal. rewrite combine_map, map_map. apply map_ext. intros i. reflexivity.
Qed.
Lemma parity_locs_eq t : 0 <= t -> chunk_iter L (Parity (t * m) 0) (Data (t * m + m)) = map (ploc L t) (zrange m k).
Proof.
  intros Ht. replace (t * m + m) with ((t + 1) * m + 0) by ring. rewrite chunk_iter_eq; auto.
  - rewrite ?(number_parity L HL), ?(number_data L) by lia. replace (t * k + m + 0) with (t * k + m) by lia. replace ((t + 1) * k + 0) with (t * k + k) by ring. rewrite map_zrange_shift. apply map_ext. intros i. reflexivity.
  - destruct (pchunk_exists L HL t m Ht ltac:(lia)) as [X _]. rewrite pchunk_eq in X by lia. rewrite Z.ltb_irrefl, Z.sub_diag in X. exact X.
  - destruct (pchunk_exists L HL (t + 1) 0 ltac:(lia) ltac:(lia)) as [X _]. rewrite pchunk_eq in X by lia. rewrite (proj2 (Z.ltb_lt 0 m)) in X by lia. exact X.
  - rewrite ?(number_parity L HL), ?(number_data L) by lia. nia.
Qed.
Lemma parity_cols t : encode (Z.to_nat k) (Z.to_nat (lf L)) (Z.to_nat C) (map (scol L cs B V t) (zrange 0 m)) = map (scol L cs B V t) (zrange m k).
Proof.
  apply (nth_ext _ _ [] []).
  - rewrite encode_length by lia. rewrite map_length, zrange_length. unfold dm. lia.
  - intros i Hi. rewrite encode_length in Hi by lia. rewrite (nth_indep (map _ _) [] (scol L cs B V t 0)) by (rewrite map_length, zrange_length; unfold dm; lia). rewrite (map_nth (scol L cs B V t)). rewrite nth_zrange by (unfold dm; lia).
    unfold scol at 2. rewrite pchunk_eq by (unfold dm; lia). rewrite (proj2 (Z.ltb_ge _ _)) by lia. cbn [content]. replace (Z.to_nat (m + Z.of_nat i - m)) with i by lia. do 2 f_equal. apply map_ext_in. intros j Hj. apply in_zrange in Hj. now apply scol_data.
Qed.
Lemma one_cols t : into_chunks cs B (map V (zrange (t * (m * cs) * B) (t * (m * cs) * B + m * C))) = map (scol L cs B V t) (zrange 0 m).
Proof.
  pose proof C_pos as CP. unfold into_chunks. rewrite zlen_map. replace (zlen (zrange (t * (m * cs) * B) (t * (m * cs) * B + m * C))) with (m * C) by (unfold zlen; rewrite zrange_length; nia).
  replace (Raid_Model.div_ceil (m * C) C) with m by (unfold Raid_Model.div_ceil; replace (m * C + C - 1) with (C - 1 + m * C) by lia; rewrite Z.div_add, Z.div_small by lia; lia).
  apply map_ext_in. intros i Hi. apply in_zrange in Hi. rewrite sub_map_zrange by nia. rewrite scol_data by assumption. unfold dcol. f_equal. unfold col_len. f_equal; ring.
Qed.
Lemma pd_pdN t i : pd L t i = pdN L (t * k + i) /\ po L t i = poN L (t * k + i).
Proof. split; reflexivity. Qed.
Lemma pd_distinct t : 0 <= t -> NoDup (map (pd L t) (zrange 0 k)).
Proof.
  intros Ht. assert (X : forall l, NoDup l -> (forall i, In i l -> 0 <= i < k) -> NoDup (map (pd L t) l)).
  { induction l as [|i l IH]; intros ND HI; cbn [map]; constructor.
    - intros H. apply in_map_iff in H. destruct H as (j & E & Hj). inversion ND as [|? ? N1 N2]; subst. pose proof (HI i (or_introl eq_refl)) as I1. pose proof (HI j (or_intror Hj)) as I2.
      destruct (pchunk_exists L HL t i Ht I1) as [X1 Y1]. destruct (pchunk_exists L HL t j Ht I2) as [X2 Y2]. assert (NE : i <> j) by (intros ->; contradiction). apply (C02_stripe_on_distinct_disks L (pchunk L t i) (pchunk L t j) HL X1 X2); [|intros EQ; rewrite EQ in Y1; lia|now symmetry].
      unfold stripe_of. rewrite Y1, Y2. rewrite !(Z.add_comm (t * k)), !Z.div_add, !Z.div_small by lia. reflexivity.
    - apply IH; [now inversion ND|]. intros j Hj. apply HI. now right. }
  apply X; [apply NoDup_zrange|]. intros i Hi. now apply in_zrange.
Qed.
Lemma one_write dk : n = 1 -> exists dk' b, write_at_one L cs B wok wjunk dk (map V (zrange (s * (m * cs) * B) (s * (m * cs) * B + m * C))) (s * (m * cs)) = Some (dk', b) /\ outcome dk dk' b.
Proof.
  intros N1. pose proof C_pos as CP. unfold write_at_one. rewrite one_cols. rewrite zlen_map. replace (zlen (zrange 0 m)) with m by (unfold zlen; rewrite zrange_length; lia). rewrite Z.eqb_refl.
  rewrite (proj2 (forallb_forall _ _)) by (intros c Hc; apply in_map_iff in Hc; destruct Hc as (i & <- & Hi); apply in_zrange in Hi; apply Z.eqb_eq; apply content_len; lia). cbn [andb oassert].
  rewrite parity_cols. replace (s * (m * cs)) with (s * m * cs) by ring. unfold data_locs, parity_locs. rewrite Z.div_mul by lia. rewrite parity_locs_eq by assumption. replace (chunk_iter L (Data (s * m)) (Parity (s * m) 0)) with (map (ploc L s) (zrange 0 m)).
  2:{ destruct (iter_to_parity L HL s 0 0 Hs ltac:(lia) ltac:(lia) ltac:(lia)) as [X|X]; [|lia]. rewrite !Z.add_0_r in X. now symmetry. }
  rewrite issue_ws1 by (apply Z.mod_mul; lia). cbn [obind]. rewrite issue_ws1 by (apply Z.mod_mul; lia). cbn [obind].
  assert (EB : batch B wok wjunk dk (ws1 s 0 k) = (fst (batch B wok wjunk (fst (batch B wok wjunk dk (ws1 s 0 m))) (ws1 s m k)), snd (batch B wok wjunk dk (ws1 s 0 m)) ++ snd (batch B wok wjunk (fst (batch B wok wjunk dk (ws1 s 0 m))) (ws1 s m k)))).
  { rewrite <- batch_app. f_equal. unfold ws1. rewrite <- map_app. now rewrite <- zrange_split by lia. }
  eexists _, _. split; [reflexivity|]. pose proof (batch_outcome dk (ws1 s 0 k)) as X. rewrite EB in X. cbn [fst snd] in X. apply X; clear X EB.
  - unfold ws1. rewrite map_map. cbn [wd fst]. now apply pd_distinct.
  - intros p Hp. rewrite N1 in Hp. exists (pd L s (p - s * k), po L s (p - s * k) * cs, scol L cs B V s (p - s * k)), (poN L p). assert (E : s * k + (p - s * k) = p) by lia. destruct (pd_pdN s (p - s * k)) as [E1 E2]. rewrite E in E1, E2.
    split; [apply in_map_iff; exists (p - s * k); split; [reflexivity|apply in_zrange; lia]|]. cbn [wd wl wv fst snd]. rewrite E1, E2. split; [reflexivity|]. split; [reflexivity|]. split; [lia|]. rewrite Z.sub_diag. split; [unfold scol; rewrite content_len; lia|]. intros j Hj. rewrite Z.mul_0_l, Z.add_0_l. unfold scol, pchunk. now rewrite E.
  - intros w Hw. apply in_map_iff in Hw. destruct Hw as (i & <- & Hi). apply in_zrange in Hi. cbn [wd wl wv fst snd]. rewrite N1. destruct (pd_pdN s i) as [E1 E2]. split; [exists (s * k + i); split; [lia|now symmetry]|]. intros o Ho. exists (s * k + i). split; [lia|]. split; [now symmetry|]. rewrite <- E2.
    unfold covers in Ho. cbn [wd wl wv fst snd] in Ho. unfold scol in Ho. rewrite content_len in Ho by assumption. apply andb_prop in Ho. destruct Ho as [Ho H2]. apply andb_prop in Ho. destruct Ho as [_ H1]. apply Z.leb_le in H1. apply Z.ltb_lt in H2. apply (Z.div_unique _ _ _ (o - po L s i * C)); unfold col_len in *; lia.
Qed.
Lemma one_col_nonempty : forall fuel c l cl r, cur_inv c -> 0 <= l -> one_col fuel c l cl = Some r -> Forall (fun v => v <> []) (fst r) /\ cur_inv (snd r).
Proof.
  induction fuel as [|fuel IH]; intros c l cl r HI Hl; cbn [one_col]; destruct (Z.ltb_spec l cl).
  - discriminate.
  - intros [= <-]. split; [constructor|exact HI].
  - pose proof (next_spec c (cl - l) HI ltac:(lia)) as X. destruct (cursor_next c (cl - l)) as [[p|] c1]; [|discriminate]. destruct X as (_ & _ & X1 & _ & X2 & _). destruct (one_col fuel c1 (l + zlen p) cl) as [[col c']|] eqn:E; [|discriminate].
    intros [= <-]. pose proof (zlen_nonneg p). destruct (IH c1 (l + zlen p) cl _ X1 ltac:(lia) E) as [Y1 Y2]. cbn [fst snd] in *. split; [constructor; [apply X2; lia|exact Y1]|exact Y2].
  - intros [= <-]. split; [constructor|exact HI].
Qed.
Lemma all_cols_nonempty fuel cl : forall mm c r, cur_inv c -> all_cols fuel mm c cl = Some r -> Forall (Forall (fun v => v <> [])) (fst r).
Proof.
  induction mm as [|mm IH]; intros c r HI; cbn [all_cols]; [intros [= <-]; constructor|]. destruct (one_col fuel c 0 cl) as [[col c1]|] eqn:E; [|discriminate]. destruct (one_col_nonempty _ _ 0 _ _ HI (Z.le_refl 0) E) as [Y1 Y2]. cbn [fst snd] in *.
  destruct (all_cols fuel mm c1 cl) as [[cols c2]|] eqn:E2; [|discriminate]. intros [= <-]. constructor; [exact Y1|]. apply (IH _ _ Y2 E2).
Qed.
(** a stripe given in pieces is written like the same stripe in one piece *)
Lemma writev_write dk sgl lba : Forall (fun v => v <> []) sgl -> zlen (concat sgl) = m * C -> writev_at_one L cs B wok wjunk dk sgl lba = write_at_one L cs B wok wjunk dk (concat sgl) lba.
Proof.
  intros HF HZ. pose proof C_pos as CP. unfold writev_at_one, write_at_one. destruct (C07_columns sgl (Z.to_nat m) C HF ltac:(lia) ltac:(lia)) as (cols & c' & E & LC & _ & HC). rewrite E. cbn [obind fst]. unfold sglist, iovec in *. pose proof (all_cols_nonempty _ _ _ _ _ (next_seg_inv sgl 0 HF) E) as NE. cbn [fst] in NE.
  assert (EC : map (@concat Z) cols = into_chunks cs B (concat sgl)).
  { unfold into_chunks. rewrite HZ. replace (Raid_Model.div_ceil (m * C) C) with m by (unfold Raid_Model.div_ceil; replace (m * C + C - 1) with (C - 1 + m * C) by lia; rewrite Z.div_add, Z.div_small by lia; lia).
    apply (nth_ext _ _ [] []); [rewrite !map_length, zrange_length, Z.sub_0_r; exact LC|]. intros i Hi. rewrite map_length in Hi. assert (Hi2 : (i < Z.to_nat m)%nat) by (rewrite <- LC; exact Hi). rewrite (nth_indep _ [] (concat (@nil (list Z)))) by (rewrite map_length; exact Hi). rewrite map_nth. specialize (HC (Z.of_nat i) ltac:(lia)). rewrite Nat2Z.id in HC. rewrite HC.
    rewrite (nth_indep (map _ (zrange 0 m)) [] ((fun i => ztake C (zdrop (i * C) (concat sgl))) 0)) by (rewrite map_length, zrange_length; lia). rewrite (map_nth (fun i => ztake C (zdrop (i * C) (concat sgl)))). rewrite nth_zrange by lia. now rewrite Z.add_0_l. }
  assert (LZ : Forall (fun c => zlen c = C) (into_chunks cs B (concat sgl))).
  { rewrite <- EC. apply Forall_forall. intros c Hc. apply (In_nth _ _ []) in Hc. destruct Hc as (i & Hi & <-). rewrite map_length in Hi. assert (Hi2 : (i < Z.to_nat m)%nat) by (rewrite <- LC; exact Hi). rewrite (nth_indep _ [] (concat (@nil (list Z)))) by (rewrite map_length; exact Hi). rewrite map_nth. specialize (HC (Z.of_nat i) ltac:(lia)). rewrite Nat2Z.id in HC. rewrite HC. rewrite zlen_take; [reflexivity|]. rewrite zlen_drop by nia. nia. }
  replace (encodev (Z.to_nat k) (Z.to_nat (lf L)) C cols) with (Some (encode (Z.to_nat k) (Z.to_nat (lf L)) (Z.to_nat C) (into_chunks cs B (concat sgl)))).
  - cbn [obind]. rewrite EC. rewrite (proj2 (forallb_forall _ _)) by (intros c Hc; apply Z.eqb_eq; now apply (proj1 (Forall_forall _ _) LZ)). assert (EM : zlen (into_chunks cs B (concat sgl)) = m) by (rewrite <- EC, zlen_map; unfold zlen; rewrite LC; lia). rewrite EM, Z.eqb_refl. reflexivity.
  - symmetry. rewrite <- (Z2Nat.id C) at 1 by lia. rewrite C06_encodev_is_encode; [now rewrite EC|lia|etransitivity; [exact LC|unfold dm; lia]|]. apply Forall_forall. intros sg Hsg. split; [now apply (proj1 (Forall_forall _ _) NE)|]. rewrite <- EC in LZ. pose proof (proj1 (Forall_forall _ _) LZ (concat sg) (in_map _ _ _ Hsg)) as X. unfold zlen in X. lia.
Qed.

(** ** Several stripes *)
Notation on d := (fun q => pdN L q =? d).
Definition dpos (p : Z) : Z := p / k * m + Z.min (p mod k) m.
Definition ppos (i p : Z) : Z := p / k + (if m + i <? p mod k then 1 else 0).
Lemma pos_succ p : 0 <= p -> (p mod k + 1 < k /\ (p + 1) / k = p / k /\ (p + 1) mod k = p mod k + 1) \/ (p mod k + 1 = k /\ (p + 1) / k = p / k + 1 /\ (p + 1) mod k = 0).
Proof.
  intros Hp. pose proof (Z.div_mod p k ltac:(lia)) as D. pose proof (Z.mod_pos_bound p k ltac:(lia)) as M. assert (X : p mod k + 1 < k \/ p mod k + 1 = k) by lia. destruct X as [X|X]; [left|right]; (split; [exact X|]).
  - split; [symmetry; apply (Z.div_unique _ _ _ (p mod k + 1)); lia|symmetry; apply (Z.mod_unique _ _ (p / k)); lia].
  - split; [symmetry; apply (Z.div_unique _ _ _ 0); lia|symmetry; apply (Z.mod_unique _ _ (p / k + 1)); lia].
Qed.
Definition par_from (i t : Z) : list Z := concat (map (fun u => scol L cs B V u (m + i)) (zrange t (s + n))).
Definition winv (p : Z) (st : wst) : Prop :=
  (forall d, w_sg st d = map (fun q => content L cs B V (nth_chunk L q)) (filter (on d) (zrange a p))) /\
  (forall d, w_start st d = if is_nil (filter (on d) (zrange a p)) then None else Some (cntd L d a * cs)) /\
  w_buf st = map V (zrange (dpos p * C) ((s + n) * m * C)) /\
  (forall i, 0 <= i < lf L -> w_par st i = par_from i (ppos i p)).
Lemma lsplit_app (x y : list Z) : zlen x = C -> lsplit C (x ++ y) = Some (x, y).
Proof.
  intros H. unfold lsplit. pose proof (zlen_nonneg y). pose proof C_pos. rewrite (proj2 (Z.leb_le _ _)) by (rewrite zlen_app; lia). rewrite ztake_app, zdrop_app by lia. rewrite ztake_all, zdrop_all by lia. rewrite H, Z.sub_diag, ztake_0, zdrop_0 by lia. now rewrite app_nil_r.
Qed.
Lemma filter_snoc (f : Z -> bool) lo p : lo <= p -> filter f (zrange lo (p + 1)) = filter f (zrange lo p) ++ (if f p then [p] else []).
Proof. intros H. rewrite (zrange_snoc lo (p + 1)) by lia. replace (p + 1 - 1) with p by lia. rewrite filter_app. cbn [filter]. reflexivity. Qed.
Lemma cntd_split d p q : 0 <= p <= q -> cntd L d q = cntd L d p + zlen (filter (on d) (zrange p q)).
Proof. intros H. unfold cntd. rewrite (zrange_split 0 p q) by lia. now rewrite filter_app, zlen_app. Qed.
(** pushing chunk [p] keeps the part of the invariant about the disks *)
Lemma push_inv p st st' : a <= p -> 
  (forall d, w_sg st d = map (fun q => content L cs B V (nth_chunk L q)) (filter (on d) (zrange a p))) ->
  (forall d, w_start st d = if is_nil (filter (on d) (zrange a p)) then None else Some (cntd L d a * cs)) ->
  w_sg st' = w_sg st -> w_start st' = w_start st ->
  let st2 := w_push (pdN L p) (poN L p * cs) (content L cs B V (nth_chunk L p)) st' in
  (forall d, w_sg st2 d = map (fun q => content L cs B V (nth_chunk L q)) (filter (on d) (zrange a (p + 1)))) /\
  (forall d, w_start st2 d = if is_nil (filter (on d) (zrange a (p + 1))) then None else Some (cntd L d a * cs)).
Proof.
  intros Hp H1 H2 E1 E2 st2. assert (A0 : 0 <= a) by nia. split; intros d; rewrite filter_snoc by assumption; unfold st2, w_push, upd; cbn [w_sg w_start]; rewrite ?E1, ?E2; rewrite (Z.eqb_sym d (pdN L p)); destruct (Z.eqb_spec (pdN L p) d) as [ED|_].
  - rewrite ED, H1, map_app. reflexivity.
  - rewrite app_nil_r. apply H1.
  - rewrite ED, H2. destruct (filter (on d) (zrange a p)) eqn:EF; cbn [is_nil app]; [|reflexivity]. f_equal. f_equal. rewrite (rows L HL p) by lia. rewrite ED. rewrite (cntd_split d a p) by lia. rewrite EF. cbn. lia.
  - rewrite app_nil_r. apply H2.
Qed.
Lemma wstep p st : a <= p < e -> winv p st -> exists st', wmulti_step L cs B st (locN L p) = Some st' /\ winv (p + 1) st'.
Proof.
  intros Hp (I1 & I2 & I3 & I4). assert (A0 : 0 <= a) by nia. pose proof C_pos as CP. pose proof (Z.div_mod p k ltac:(lia)) as D. pose proof (Z.mod_pos_bound p k ltac:(lia)) as M. set (t := p / k) in *. set (i := p mod k) in *.
  assert (T : s <= t < s + n) by (split; [apply Z.div_le_lower_bound; lia|apply Z.div_lt_upper_bound; lia]). pose proof (pos_succ p ltac:(lia)) as NX. fold t in NX. fold i in NX.
  assert (EC : nth_chunk L p = pchunk L t i) by (apply nth_chunk_p; lia). unfold locN. set (loc := id2loc L (nth_chunk L p)). destruct (Z_lt_ge_dec i m) as [Hi|Hi].
  - assert (EX : nth_chunk L p = Data (t * m + i)) by (rewrite EC, pchunk_eq by lia; rewrite (proj2 (Z.ltb_lt _ _)) by lia; reflexivity). assert (EP : dpos p = t * m + i) by (unfold dpos; fold t i; lia).
    assert (EV : w_buf st = content L cs B V (nth_chunk L p) ++ map V (zrange ((t * m + i + 1) * C) ((s + n) * m * C))).
    { rewrite I3, EP, EX. cbn [content]. unfold dcol. rewrite <- map_app. f_equal. apply zrange_split. split; [nia|]. apply Z.mul_le_mono_nonneg_r; [lia|]. assert ((t + 1) * m <= (s + n) * m) by (apply Z.mul_le_mono_nonneg_r; lia). clear - H Hi. lia. }
    rewrite EX. unfold wmulti_step. cbn [fst snd]. rewrite EV. rewrite lsplit_app by (apply content_len_p; lia). cbn [obind fst snd]. eexists. split; [reflexivity|]. destruct (push_inv p st (Wst (w_sg st) (w_start st) (map V (zrange ((t * m + i + 1) * C) ((s + n) * m * C))) (w_par st)) ltac:(lia) I1 I2 eq_refl eq_refl) as [P1 P2].
    split; [exact P1|]. split; [exact P2|]. cbn [w_push w_buf w_par]. assert (NX2 : (p + 1) / k = t /\ (p + 1) mod k = i + 1) by lia. destruct NX2 as [NX1 NX2]. split.
    + unfold dpos. rewrite NX1, NX2. rewrite Z.min_l by lia. do 3 f_equal. lia.
    + intros j Hj. rewrite (I4 j Hj). f_equal. unfold ppos. rewrite NX1, NX2. fold t i. rewrite !(proj2 (Z.ltb_ge _ _)) by lia. reflexivity.
  - assert (EX : nth_chunk L p = Parity (t * m) (i - m)) by (rewrite EC, pchunk_eq by lia; rewrite (proj2 (Z.ltb_ge _ _)) by lia; reflexivity).
    assert (EV : w_par st (i - m) = content L cs B V (nth_chunk L p) ++ par_from (i - m) (t + 1)).
    { rewrite I4 by (unfold dm; unfold dm in Hi; lia). unfold ppos. fold t i. rewrite (proj2 (Z.ltb_ge _ _)) by lia. unfold par_from. rewrite Z.add_0_r, (zrange_cons t) by lia. cbn [map concat]. f_equal. unfold scol. replace (m + (i - m)) with i by lia. now rewrite EC. }
    rewrite EX. unfold wmulti_step. cbn [fst snd]. rewrite (proj2 (Z.ltb_lt _ _)) by (unfold dm in *; lia). cbn [oassert]. rewrite EV. rewrite lsplit_app by (apply content_len_p; lia). cbn [obind fst snd]. eexists. split; [reflexivity|].
    destruct (push_inv p st (Wst (w_sg st) (w_start st) (w_buf st) (upd (w_par st) (i - m) (par_from (i - m) (t + 1)))) ltac:(lia) I1 I2 eq_refl eq_refl) as [P1 P2].
    split; [exact P1|]. split; [exact P2|]. cbn [w_push w_buf w_par]. split.
    + rewrite I3. do 3 f_equal. unfold dpos. fold t i. destruct NX as [(N0 & N1 & N2)|(N0 & N1 & N2)]; rewrite N1, N2; [rewrite !Z.min_r by lia; reflexivity|]. rewrite Z.min_r, Z.min_l by lia. lia.
    + intros j Hj. unfold upd. destruct (Z.eqb_spec j (i - m)) as [->|NE].
      * f_equal. unfold ppos. destruct NX as [(N0 & N1 & N2)|(N0 & N1 & N2)]; rewrite N1, N2; [rewrite (proj2 (Z.ltb_lt _ _)) by lia; lia|]. rewrite (proj2 (Z.ltb_ge _ _)) by lia. lia.
      * rewrite (I4 j Hj). f_equal. unfold ppos. fold t i. destruct NX as [(N0 & N1 & N2)|(N0 & N1 & N2)]; rewrite N1, N2.
        -- f_equal. destruct (Z.ltb_spec (m + j) i), (Z.ltb_spec (m + j) (i + 1)); lia.
        -- rewrite (proj2 (Z.ltb_lt (m + j) i)) by (unfold dm in *; lia). rewrite (proj2 (Z.ltb_ge _ _)) by lia. lia.
Qed.
Lemma ofold_snoc {A S} (f : S -> A -> option S) l x st : ofold f (l ++ [x]) st = match ofold f l st with Some st' => f st' x | None => None end.
Proof. revert st. induction l as [|y l IH]; intros st; cbn [app ofold]; [destruct (f st x); reflexivity|]. destruct (f st y); cbn [obind]; [apply IH|reflexivity]. Qed.
Lemma wrun st0 : winv a st0 -> forall j, a + Z.of_nat j <= e -> exists st, ofold (wmulti_step L cs B) (map (locN L) (zrange a (a + Z.of_nat j))) st0 = Some st /\ winv (a + Z.of_nat j) st.
Proof.
  intros H0. induction j as [|j IH]; intros Hj.
  - rewrite Z.add_0_r, zrange_empty by lia. exists st0. split; [reflexivity|exact H0].
  - destruct IH as (st & E & I); [lia|]. destruct (wstep (a + Z.of_nat j) st ltac:(lia) I) as (st' & E' & I'). exists st'. replace (a + Z.of_nat (S j)) with (a + Z.of_nat j + 1) by lia. rewrite (zrange_snoc a (a + Z.of_nat j + 1)) by lia. replace (a + Z.of_nat j + 1 - 1) with (a + Z.of_nat j) by lia. rewrite map_app. cbn [map]. rewrite ofold_snoc, E. auto.
Qed.
Definition wsm (st : wst) (ds : list Z) : list (Z * Z * list Z) := concat (map (fun d => match w_start st d with None => [] | Some l => [(d, l, concat (w_sg st d))] end) ds).
Lemma write_disks_batch st ds : forall dk rs, fold_left (fun acc d => match w_start st d with
                          | None => acc
                          | Some lba => let dr := child_write B wok wjunk (fst acc) d lba (concat (w_sg st d)) in (fst dr, snd acc ++ [snd dr]) end) ds (dk, rs)
  = (fst (batch B wok wjunk dk (wsm st ds)), rs ++ snd (batch B wok wjunk dk (wsm st ds))).
Proof.
  induction ds as [|d ds IH]; intros dk rs; cbn [fold_left wsm map concat batch].
  - cbn [fst snd]. now rewrite app_nil_r.
  - unfold wsm in *. cbn [map concat]. destruct (w_start st d) as [l|]; [|apply IH]. cbv zeta. rewrite IH. cbn [app batch fst snd wd wl wv]. f_equal. now rewrite <- app_assoc.
Qed.
Lemma in_wsm st ds w : In w (wsm st ds) <-> exists d l, In d ds /\ w_start st d = Some l /\ w = (d, l, concat (w_sg st d)).
Proof.
  unfold wsm. rewrite in_concat. split.
  - intros (x & Hx & Hw). apply in_map_iff in Hx. destruct Hx as (d & <- & Hd). destruct (w_start st d) as [l|] eqn:E; [|contradiction]. destruct Hw as [<-|[]]. exists d, l. auto.
  - intros (d & l & Hd & E & ->). eexists. split; [apply in_map_iff; exists d; split; [reflexivity|exact Hd]|]. rewrite E. now left.
Qed.
Lemma wsm_NoDup st ds : NoDup ds -> NoDup (map wd (wsm st ds)).
Proof.
  unfold wsm. induction ds as [|d ds IH]; intros ND; cbn [map concat]; [constructor|]. inversion ND as [|? ? N1 N2]; subst. rewrite map_app. destruct (w_start st d) as [l|]; cbn [map app]; [|auto]. constructor; [|auto]. cbn [wd fst]. intros H. apply in_map_iff in H. destruct H as (w & E & Hw). apply in_wsm in Hw. destruct Hw as (d' & l' & Hd' & _ & ->). cbn [wd fst] in E. congruence.
Qed.
Lemma idx_on d p : a <= p < e -> pdN L p = d -> nth (Z.to_nat (cntd L d p - cntd L d a)) (filter (on d) (zrange a e)) 0 = p /\ 0 <= cntd L d p - cntd L d a < zlen (filter (on d) (zrange a e)).
Proof.
  intros Hp E. assert (A0 : 0 <= a) by nia. rewrite (cntd_split d a p) by lia. rewrite (zrange_split a p e) by lia. rewrite filter_app, zlen_app. rewrite (zrange_cons p e) by lia. cbn [filter]. rewrite (proj2 (Z.eqb_eq _ _) E). rewrite zlen_cons. pose proof (zlen_nonneg (filter (on d) (zrange a p))). pose proof (zlen_nonneg (filter (on d) (zrange (p + 1) e))).
  split; [|lia]. rewrite app_nth2 by (unfold zlen in *; lia). replace (Z.to_nat _ - _)%nat with O by (unfold zlen in *; lia). reflexivity.
Qed.
Lemma multi_write dk : exists dk' b, write_at_multi L cs B wok wjunk dk (map V (zrange (s * (m * cs) * B) (s * (m * cs) * B + n * (m * C)))) (s * (m * cs)) = Some (dk', b) /\ outcome dk dk' b.
Proof.
  pose proof C_pos as CP. assert (A0 : 0 <= a) by nia. set (buf := map V _). assert (ZB : zlen buf = n * m * C) by (unfold buf; rewrite zlen_map; unfold zlen; rewrite zrange_length; nia).
  unfold write_at_multi. rewrite ZB. replace (n * m * C / C) with (n * m) by (rewrite Z.div_mul; lia). rewrite Z.div_mul by lia.
  assert (EI : chunk_iter L (Data (s * (m * cs) / cs)) (Data ((s * (m * cs) + n * m * C / B) / cs)) = map (locN L) (zrange a e)).
  { replace (s * (m * cs)) with (s * m * cs) by ring. rewrite Z.div_mul by lia. unfold col_len. replace (n * m * (cs * B)) with (n * m * cs * B) by ring. rewrite Z.div_mul by lia. replace (s * m * cs + n * m * cs) with ((s + n) * m * cs) by ring. rewrite Z.div_mul by lia. replace (s * m) with (s * m + 0) by lia. replace ((s + n) * m) with ((s + n) * m + 0) by lia. rewrite chunk_iter_eq; auto.
    - rewrite !(number_data L) by lia. rewrite !Z.add_0_r. reflexivity.
    - destruct (pchunk_exists L HL s 0 Hs ltac:(lia)) as [X _]. rewrite pchunk_eq in X by lia. rewrite (proj2 (Z.ltb_lt 0 m)) in X by lia. exact X.
    - destruct (pchunk_exists L HL (s + n) 0 ltac:(lia) ltac:(lia)) as [X _]. rewrite pchunk_eq in X by lia. rewrite (proj2 (Z.ltb_lt 0 m)) in X by lia. exact X.
    - rewrite !(number_data L) by lia. nia. }
  rewrite EI. clear EI.
  assert (I0 : winv a (Wst (fun _ => []) (fun _ => None) buf (parity_buf L cs B buf n))).
  { split; [intros d; now rewrite zrange_empty by lia|]. split; [intros d; now rewrite zrange_empty by lia|]. cbn [w_buf w_par]. split.
    - unfold buf, dpos. rewrite Z.div_mul, Z.mod_mul by lia. rewrite Z.min_l by lia. unfold col_len. do 2 f_equal; ring.
    - intros i Hi. unfold parity_buf, par_from, ppos. rewrite Z.div_mul, Z.mod_mul by lia. rewrite (proj2 (Z.ltb_ge _ _)) by lia. rewrite Z.add_0_r. f_equal. assert (EZ : zrange s (s + n) = zrange (s + 0) (s + n)) by (f_equal; lia). rewrite EZ, map_zrange_shift. apply map_ext_in. intros u Hu. apply in_zrange in Hu.
      assert (ES : stripe_cols L cs B buf u = map (scol L cs B V (s + u)) (zrange 0 m)).
      { unfold stripe_cols. apply map_ext_in. intros j Hj. apply in_zrange in Hj. unfold buf. rewrite sub_map_zrange; [|nia|lia|]. 2:{ assert ((u * m + j + 1) * C <= n * m * C) by (apply Z.mul_le_mono_nonneg_r; [lia|nia]). lia. } rewrite scol_data by assumption. unfold dcol. f_equal. unfold col_len. f_equal; ring. }
      rewrite ES, parity_cols. rewrite (nth_indep _ [] (scol L cs B V (s + u) 0)) by (rewrite map_length, zrange_length; unfold dm; lia). rewrite (map_nth (scol L cs B V (s + u))). rewrite nth_zrange by (unfold dm; lia). f_equal. lia. }
  destruct (wrun _ I0 (Z.to_nat (n * k)) ltac:(rewrite Z2Nat.id by nia; lia)) as (st & E & (J1 & J2 & _ & _)). rewrite Z2Nat.id in E, J1, J2 by nia. replace (a + n * k) with e in * by ring. rewrite E. cbn [obind]. clear E I0. unfold write_disks. rewrite write_disks_batch. cbn [fst snd app].
  eexists _, _. split; [reflexivity|]. apply batch_outcome.
  - apply wsm_NoDup, NoDup_zrange.
  - intros p Hp. set (d := pdN L p). destruct (idx_on d p Hp eq_refl) as [X1 X2]. exists (d, cntd L d a * cs, concat (w_sg st d)), (cntd L d a). cbn [wd wl wv fst snd]. rewrite (rows L HL p) by lia. fold d.
    assert (HF : Forall (fun l => zlen l = C) (w_sg st d)). { rewrite J1. apply Forall_map. apply Forall_forall. intros q Hq. apply filter_In in Hq. destruct Hq as [Hq _]. apply in_zrange in Hq. apply content_len_p. lia. }
    assert (HZ : zlen (w_sg st d) = zlen (filter (on d) (zrange a e))) by (rewrite J1; apply zlen_map).
    split. { apply in_wsm. exists d, (cntd L d a * cs). split; [apply in_zrange; apply pdN_range; [exact HL|lia]|]. split; [|reflexivity]. rewrite J2. destruct (filter (on d) (zrange a e)); [unfold zlen in X2; cbn in X2; lia|reflexivity]. }
    split; [reflexivity|]. split; [reflexivity|]. split; [lia|]. split; [rewrite (concat_len C) by exact HF; rewrite HZ; nia|]. intros j Hj. rewrite (nth_concat C) by (auto; lia). f_equal. rewrite J1. rewrite (nth_indep _ [] (content L cs B V (nth_chunk L 0))) by (rewrite map_length; unfold zlen in X2; lia). rewrite (map_nth (fun q => content L cs B V (nth_chunk L q))). now rewrite X1.
  - intros w Hw. apply in_wsm in Hw. destruct Hw as (d & l & Hd & El & ->). cbn [wd wl wv fst snd]. rewrite J2 in El. destruct (filter (on d) (zrange a e)) as [|q0 ql] eqn:EF; [discriminate|]. cbn [is_nil] in El. injection El as <-. split.
    { exists q0. assert (Hq : In q0 (filter (on d) (zrange a e))) by (rewrite EF; now left). apply filter_In in Hq. destruct Hq as [Hq1 Hq2]. apply in_zrange in Hq1. apply Z.eqb_eq in Hq2. auto. }
    intros o Ho. unfold covers in Ho. cbn [wd wl wv fst snd] in Ho. apply andb_prop in Ho. destruct Ho as [Ho H2]. apply andb_prop in Ho. destruct Ho as [_ H1]. apply Z.leb_le in H1. apply Z.ltb_lt in H2. rewrite J1 in H2. rewrite (concat_len C) in H2.
    2:{ apply Forall_map. apply Forall_forall. intros q Hq. apply filter_In in Hq. destruct Hq as [Hq _]. apply in_zrange in Hq. apply content_len_p. lia. }
    rewrite zlen_map in H2. set (ps := filter (on d) (zrange a e)) in *. set (r0 := cntd L d a) in *. replace (r0 * cs * B) with (r0 * C) in * by (unfold col_len; ring). set (idx := o / C - r0). pose proof (Z.div_mod o C ltac:(lia)) as D. pose proof (Z.mod_pos_bound o C CP) as M. assert (HI : 0 <= idx < zlen ps) by (unfold idx; clear - D M H1 H2 CP; nia).
    set (p := nth (Z.to_nat idx) ps 0). assert (Hin : In p ps) by (apply nth_In; unfold zlen in HI; lia). pose proof Hin as Hin2. unfold ps in Hin2. apply filter_In in Hin2. destruct Hin2 as [P1 P2]. apply in_zrange in P1. apply Z.eqb_eq in P2. exists p. split; [exact P1|]. split; [exact P2|].
    destruct (idx_on d p P1 P2) as [X1 X2]. fold ps in X1, X2. fold r0 in X1, X2. assert (NDp : NoDup ps) by (apply NoDup_filter, NoDup_zrange). pose proof (proj1 (NoDup_nth ps 0) NDp (Z.to_nat (cntd L d p - r0)) (Z.to_nat idx) ltac:(unfold zlen in *; lia) ltac:(unfold zlen in *; lia) X1) as EQ. rewrite (rows L HL p) by lia. rewrite P2. unfold idx in EQ. lia.
Qed.
End Write.
