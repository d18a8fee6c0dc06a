(** Proofs about the long reads of the RAID vdev. *)
From Verif Require Import Common FSM_Model PrimeS_Model PrimeS_Proofs2 PrimeS_Props Codec_Model Codec_Proofs Codec_GF Codec_Props Raid_Model Raid_Recon Raid_World Raid_One Raid_Multi RaidL_Model.
Local Opaque id2loc nth_chunk.

(** * Combinations *)
Definition tally (p : Z -> bool) (l : list Z) : nat := length (filter p l).
Lemma combos_in (p : Z -> bool) l : In (filter p l) (combinations (tally p l) l).
Proof.
  unfold tally. induction l as [|x l IH]; [now left|]. cbn [filter]. destruct (p x).
  - cbn [length combinations]. apply in_or_app. left. now apply in_map.
  - destruct (length (filter p l)) as [|n] eqn:E.
    + destruct (filter p l); [now left|discriminate].
    + cbn [combinations]. apply in_or_app. now right.
Qed.
Lemma combos_len f : forall l it, In it (combinations f l) -> length it = f /\ incl it l /\ (NoDup l -> NoDup it).
Proof.
  intros l. revert f. induction l as [|x l IH]; intros [|f] it H; cbn [combinations] in H.
  - destruct H as [<-|[]]. split; [reflexivity|]. split; [intros ? []|constructor].
  - destruct H.
  - destruct H as [<-|[]]. split; [reflexivity|]. split; [intros ? []|constructor].
  - apply in_app_or in H. destruct H as [H|H].
    + apply in_map_iff in H. destruct H as (it' & <- & H). destruct (IH f it' H) as (A & B & C). split; [cbn; lia|]. split.
      * intros y [<-|Hy]; [now left|right; auto].
      * intros ND. inversion ND; subst. constructor; auto.
    + destruct (IH (S f) it H) as (A & B & C). split; [exact A|]. split; [intros y Hy; right; auto|]. intros ND. inversion ND; auto.
Qed.
Lemma extend_to (p : Z -> bool) l f : NoDup l -> (tally p l <= f <= length l)%nat -> exists q, (forall i, In i l -> p i = true -> q i = true) /\ tally q l = f.
Proof.
  revert f. induction l as [|x l IH]; intros f ND H; unfold tally in *; cbn [filter length] in *.
  - exists p. split; [auto|cbn in *; lia].
  - inversion ND as [|? ? NI ND']; subst.
    assert (W : forall (b : bool) g, (length (filter p l) <= g <= length l)%nat -> (p x = true -> b = true) -> f = (if b then S g else g) -> exists q, (forall i, In i (x :: l) -> p i = true -> q i = true) /\ length (if q x then x :: filter q l else filter q l) = f).
    { intros b g Hg Hb Ef. destruct (IH g ND' Hg) as (q & Q1 & Q2). exists (fun i => if i =? x then b else q i). split.
      - intros i [<-|Hi] Hp; [rewrite Z.eqb_refl; auto|]. destruct (Z.eqb_spec i x); [subst; contradiction|auto].
      - rewrite Z.eqb_refl. assert (E : filter (fun i => if i =? x then b else q i) l = filter q l) by (apply filter_ext_in; intros i Hi; destruct (Z.eqb_spec i x); [subst; contradiction|reflexivity]). rewrite E. destruct b; cbn [length]; lia. }
    destruct (p x) eqn:E.
    + cbn [length] in H. apply (W true (f - 1)%nat); [lia|auto|lia].
    + destruct (Nat.le_gt_cases f (length l)).
      * apply (W false f); [lia|discriminate|reflexivity].
      * pose proof (filter_split p l). apply (W true (f - 1)%nat); [lia|auto|lia].
Qed.
Lemma member_filter (q : Z -> bool) l i : member i (filter q l) = true <-> In i l /\ q i = true.
Proof. unfold member. rewrite existsb_exists. split; [intros (x & Hx & E); apply Z.eqb_eq in E; subst; now apply filter_In in Hx|]. intros H. exists i. split; [now apply filter_In|apply Z.eqb_refl]. Qed.
Lemma member_in i l : member i l = true <-> In i l.
Proof. unfold member. rewrite existsb_exists. split; [intros (x & Hx & E); apply Z.eqb_eq in E; now subst|]. intros H. exists i. split; [exact H|apply Z.eqb_refl]. Qed.
Lemma failures_in (vs : list bool) i : In i (map fst (filter (fun iv => negb (snd iv)) (combine (zrange 0 (zlen vs)) vs))) <-> 0 <= i /\ nth_error vs (Z.to_nat i) = Some false.
Proof.
  assert (G : forall vs lo, In i (map fst (filter (fun iv => negb (snd iv)) (combine (zrange lo (lo + zlen vs)) vs))) <-> lo <= i /\ nth_error vs (Z.to_nat (i - lo)) = Some false).
  { clear vs. induction vs as [|v vs IH]; intros lo.
    - change (zlen (@nil bool)) with 0. rewrite Z.add_0_r, zrange_empty by lia. cbn. split; [tauto|]. intros [_ H]. destruct (Z.to_nat (i - lo)); discriminate.
    - rewrite zlen_cons. pose proof (zlen_nonneg vs). rewrite zrange_cons by lia. cbn [combine filter snd]. replace (lo + (1 + zlen vs)) with (lo + 1 + zlen vs) by lia.
      assert (E : i = lo \/ i <> lo) by lia. destruct E as [->|NE].
      + rewrite Z.sub_diag. cbn [Z.to_nat nth_error]. destruct v; cbn [negb map fst In].
        * rewrite IH. split; [intros [? _]; lia|intros [_ ?]; discriminate].
        * split; [intros _; split; [lia|reflexivity]|intros _; now left].
      + assert (X : (lo <= i /\ nth_error (v :: vs) (Z.to_nat (i - lo)) = Some false) <-> (lo + 1 <= i /\ nth_error vs (Z.to_nat (i - (lo + 1))) = Some false)).
        { split; intros [H1 H2]; (split; [lia|]); replace (Z.to_nat (i - lo)) with (S (Z.to_nat (i - (lo + 1)))) in * by lia; exact H2. }
        rewrite X, <- IH. destruct v; cbn [negb map fst In]; [tauto|]. split; [intros [Y|Y]; [congruence|exact Y]|auto]. }
  specialize (G vs 0). rewrite Z.add_0_l, Z.sub_0_r in G. exact G.
Qed.

(** * Rebuilding one stripe *)
Section Rebuild.
Context (L : layout) (cs B : Z) (HB : 0 < B) (Hcs : 0 < cs) (Hf : 0 < lf L < lk L) (H256 : lk L <= 256).
Notation m := (dm L).
Notation k := (lk L).
Notation C := (col_len cs B).
Notation kN := (Z.to_nat (lk L)).
Notation fN := (Z.to_nat (lf L)).
Notation mN := (Z.to_nat m).
Notation CN := (Z.to_nat C).
Lemma fill_in_map er g h : forall n lo, fill_in er lo (map g (zrange lo (lo + Z.of_nat n))) (map h (filter er (zrange lo (lo + Z.of_nat n)))) = map (fun i => if er i then h i else g i) (zrange lo (lo + Z.of_nat n)).
Proof.
  induction n as [|n IH]; intros lo; [rewrite zrange_empty by lia; reflexivity|]. rewrite zrange_cons by lia. replace (lo + Z.of_nat (S n)) with (lo + 1 + Z.of_nat n) by lia. cbn [map filter fill_in]. destruct (er lo); cbn [map tl]; f_equal; apply IH.
Qed.
Lemma fill_in_len er : forall data missing i, length (fill_in er i data missing) = length data.
Proof. induction data as [|c data IH]; intros missing i; cbn [fill_in length]; [reflexivity|]. destruct (er i); cbn [length]; now rewrite IH. Qed.
Lemma fill_in_all (P : list Z -> Prop) er : forall data missing i, Forall P data -> Forall P missing -> Forall P (fill_in er i data missing).
Proof.
  induction data as [|c data IH]; intros missing i HD HM; cbn [fill_in]; [constructor|]. inversion HD; subst. destruct (er i); constructor; auto.
  - destruct missing; [assumption|now inversion HM].
  - apply IH; auto. destruct missing; [constructor|now inversion HM].
Qed.
Definition surv (er : Z -> bool) : list Z := ztake m (filter (fun i => negb (er i)) (zrange 0 k)).
Lemma rebuild_eq (g : Z -> list Z) er : rebuild L cs B (map g (zrange 0 k)) er =
  if (tally er (zrange 0 m) =? 0)%nat then Some (map g (zrange 0 m))
  else let* dec := decode kN fN CN (map g (surv er)) (tally er (zrange 0 m)) (fun i => er (Z.of_nat i)) in Some (fill_in er 0 (map g (zrange 0 m)) dec).
Proof.
  unfold rebuild. fold (tally er (zrange 0 m)). rewrite combine_map_r, filter_map_comm, map_map. cbn [fst snd]. assert (MP : 0 < m < k) by (unfold dm; lia).
  assert (E1 : ztake m (map g (zrange 0 k)) = map g (zrange 0 m)). { rewrite <- map_ztake. f_equal. pose proof (zrange_sub 0 k 0 m ltac:(lia) ltac:(lia) ltac:(lia)) as Z. unfold sub in Z. now rewrite zdrop_0 in Z by lia. }
  rewrite E1. rewrite <- map_ztake. reflexivity.
Qed.
Lemma seq_filter (p : Z -> bool) n : map Z.of_nat (filter (fun i => p (Z.of_nat i)) (seq 0 n)) = filter p (zrange 0 (Z.of_nat n)).
Proof. rewrite <- zrange_seq. symmetry. apply filter_map_comm. Qed.
Lemma tally_seq er n : 0 <= n -> length (filter (fun i => er (Z.of_nat i)) (seq 0 (Z.to_nat n))) = tally er (zrange 0 n).
Proof. intros Hn. unfold tally. rewrite <- (map_length Z.of_nat), seq_filter. now rewrite Z2Nat.id by lia. Qed.
Lemma surv_seq er : surv er = map Z.of_nat (firstn mN (filter (fun i => negb (er (Z.of_nat i))) (seq 0 kN))).
Proof. unfold surv, ztake. rewrite <- firstn_map. f_equal. rewrite (seq_filter (fun i => negb (er i)) kN). now rewrite Z2Nat.id by lia. Qed.
Lemma tally_mono p n n' : 0 <= n <= n' -> (tally p (zrange 0 n) <= tally p (zrange 0 n'))%nat.
Proof. intros H. unfold tally. rewrite (zrange_split 0 n n') by lia. rewrite filter_app, app_length. lia. Qed.

Context (col : Z -> list Z) (G : good_stripe L cs B col).
Notation data := (map col (zrange 0 m)).
Lemma stripe_col i : 0 <= i < k -> nth (Z.to_nat i) (stripe kN fN CN data) [] = col i.
Proof.
  intros Hi. assert (MP : 0 < m < k) by (unfold dm; lia). unfold stripe. destruct G as [[G1 _] G3]. destruct (Z_lt_ge_dec i m) as [H|H].
  - rewrite app_nth1 by lia. now apply (nth_data L (fun _ => []) (fun _ => []) col).
  - rewrite app_nth2 by lia. rewrite G1. replace (Z.to_nat i - mN)%nat with (Z.to_nat (i - m)) by lia. rewrite <- G3 by (unfold dm in *; lia). f_equal. lia.
Qed.
Lemma decode_true er : (tally er (zrange 0 k) <= fN)%nat -> tally er (zrange 0 m) <> 0%nat ->
  decode kN fN CN (map col (surv er)) (tally er (zrange 0 m)) (fun i => er (Z.of_nat i)) = Some (map col (filter er (zrange 0 m))).
Proof.
  intros Hc Hn. assert (MP : 0 < m < k) by (unfold dm; lia). pose proof (C06_decode_rebuilds_lost_columns kN fN CN data (fun i => er (Z.of_nat i))) as D. assert (EM : (kN - fN)%nat = mN) by (unfold dm; lia). rewrite EM in D.
  rewrite tally_seq in D by lia. destruct G as [G1 _].
  assert (ES : survivors kN mN (fun i => er (Z.of_nat i)) (stripe kN fN CN data) = map col (surv er)).
  { unfold survivors. rewrite surv_seq, map_map. apply map_ext_in. intros r Hr. assert (Hr2 : In r (filter (fun r => negb (er (Z.of_nat r))) (seq 0 kN))) by (rewrite <- (firstn_skipn mN); apply in_or_app; now left). apply filter_In in Hr2. destruct Hr2 as [Hr2 _]. apply in_seq in Hr2. rewrite <- (stripe_col (Z.of_nat r)) by lia. now rewrite Nat2Z.id. }
  assert (EL : lost_data mN (fun i => er (Z.of_nat i)) data = map col (filter er (zrange 0 m))).
  { unfold lost_data. pose proof (seq_filter er mN) as SF. rewrite Z2Nat.id in SF by lia. rewrite <- SF, map_map. apply map_ext_in. intros r Hr. apply filter_In in Hr. destruct Hr as [Hr _]. apply in_seq in Hr. rewrite <- (nth_data L (fun _ => []) (fun _ => []) col (Z.of_nat r)) by lia. now rewrite Nat2Z.id. }
  rewrite ES, EL in D. apply D; try lia; [exact G1|unfold at_most_lost; rewrite tally_seq by lia; exact Hc|].
  intros E. apply Hn. rewrite <- tally_seq by lia. now rewrite E.
Qed.
Lemma surv_data er i : (tally er (zrange 0 k) <= fN)%nat -> 0 <= i < m -> er i = false -> In i (surv er).
Proof.
  intros Hc Hi He. assert (MP : 0 < m < k) by (unfold dm; lia). unfold surv. rewrite (zrange_split 0 m k) by lia. rewrite filter_app. unfold ztake. rewrite firstn_app. apply in_or_app. left. rewrite firstn_all2.
  - apply filter_In. split; [apply in_zrange; lia|now rewrite He].
  - pose proof (filter_split (fun i => er i) (zrange 0 m)) as S1. rewrite zrange_length in S1. lia.
Qed.
Lemma surv_len er : (tally er (zrange 0 k) <= fN)%nat -> length (surv er) = mN.
Proof.
  intros Hc. assert (MP : 0 < m < k) by (unfold dm; lia). unfold surv, ztake. rewrite firstn_length. pose proof (filter_split er (zrange 0 k)) as S1. rewrite zrange_length in S1. unfold tally in Hc. unfold dm in *. lia.
Qed.
(** if the columns used are right the stripe is right *)
Lemma rebuild_true g er : (tally er (zrange 0 k) <= fN)%nat -> (forall i, In i (surv er) -> g i = col i) -> rebuild L cs B (map g (zrange 0 k)) er = Some data.
Proof.
  intros Hc Hg. assert (MP : 0 < m < k) by (unfold dm; lia). rewrite rebuild_eq. destruct (Nat.eqb_spec (tally er (zrange 0 m)) 0) as [E|NE].
  - f_equal. apply map_ext_in. intros i Hi. apply Hg. apply in_zrange in Hi. apply surv_data; auto. destruct (er i) eqn:Ei; [|reflexivity]. exfalso. unfold tally in E. apply length_zero_iff_nil in E. assert (X : In i (filter er (zrange 0 m))) by (apply filter_In; split; [now apply in_zrange|exact Ei]). rewrite E in X. exact X.
  - rewrite (map_ext_in g col (surv er)) by exact Hg. rewrite decode_true by assumption. cbn [obind]. f_equal. pose proof (fill_in_map er g col mN 0) as F. rewrite Z.add_0_l, Z2Nat.id in F by lia. rewrite F. apply map_ext_in. intros i Hi. apply in_zrange in Hi. destruct (er i) eqn:Ei; [reflexivity|]. apply Hg. now apply surv_data.
Qed.
End Rebuild.

(** * Rebuilding never panics *)
Lemma decode_shape m f len s n er out : decode m f len s n er = Some out -> Forall (fun c => length c = len) out.
Proof.
  unfold decode. destruct (_ || _); [discriminate|]. destruct (decode_rows _ _ _ _ _ _ _ _ _ _) as [rows|]; [|discriminate]. intros [= <-]. unfold cols_Z, ec_encode_data. rewrite map_map. apply Forall_map, Forall_forall. intros r _. now rewrite !map_length, seq_length.
Qed.
Lemma decode_defined m f len s s' n er : length s = length s' -> decode m f len s n er <> None -> decode m f len s' n er <> None.
Proof. intros E. unfold decode. rewrite E. destruct (_ || _); [auto|]. destruct (decode_rows _ _ _ _ _ _ _ _ _ _); [discriminate|auto]. Qed.
Lemma healthy_ext e1 e2 : forall cand n, (forall i, In i cand -> e1 i = e2 i) -> healthy e1 cand n = healthy e2 cand n.
Proof.
  induction cand as [|x cand IH]; intros [|n] H; cbn [healthy]; try reflexivity. rewrite (H x (or_introl eq_refl)). rewrite !IH by (intros i Hi; apply H; now right). reflexivity.
Qed.
Lemma decode_ext m f len s n e1 e2 : (forall i, (i < m)%nat -> e1 i = e2 i) -> decode m f len s n e1 = decode m f len s n e2.
Proof.
  intros H. unfold decode, decode_rows. assert (E : filter e1 (seq 0 (m - f)) = filter e2 (seq 0 (m - f))) by (apply filter_ext_in; intros i Hi; apply in_seq in Hi; apply H; lia). rewrite E. rewrite (healthy_ext e1 e2) by (intros i Hi; apply in_seq in Hi; apply H; lia). reflexivity.
Qed.
Lemma fill_in_ext e1 e2 : forall data missing lo, (forall i, lo <= i < lo + zlen data -> e1 i = e2 i) -> fill_in e1 lo data missing = fill_in e2 lo data missing.
Proof.
  induction data as [|c data IH]; intros missing lo H; cbn [fill_in]; [reflexivity|]. rewrite zlen_cons in H. pose proof (zlen_nonneg data). rewrite (H lo) by lia. destruct (e2 lo); f_equal; apply IH; intros i Hi; apply H; lia.
Qed.
Section Total.
Context (L : layout) (cs B : Z) (HL : legal L) (HB : 0 < B) (Hcs : 0 < cs) (H256 : lk L <= 256).
Notation m := (dm L).
Notation k := (lk L).
Notation C := (col_len cs B).
Let Hf := legal_fk L HL.
Let MP := m_range L HL.
Lemma rebuild_total g er : (forall i, 0 <= i < k -> zlen (g i) = C) -> (tally er (zrange 0 k) <= Z.to_nat (lf L))%nat ->
  exists data, rebuild L cs B (map g (zrange 0 k)) er = Some data /\ zlen data = m /\ Forall (fun c => zlen c = C) data.
Proof.
  intros Hg Hc. rewrite rebuild_eq by auto. assert (HD : Forall (fun c => zlen c = C) (map g (zrange 0 m))) by (apply Forall_map, Forall_forall; intros i Hi; apply in_zrange in Hi; apply Hg; lia). assert (HLen : zlen (map g (zrange 0 m)) = m) by (rewrite zlen_map; unfold zlen; rewrite zrange_length; lia).
  destruct (Nat.eqb_spec (tally er (zrange 0 m)) 0) as [E|NE]; [eauto|].
  assert (GS : good_stripe L cs B (scol L cs B (fun _ => 0) 0)) by (apply scol_good; auto; lia).
  pose proof (decode_true L cs B Hf H256 _ GS er Hc NE) as D.
  destruct (decode (Z.to_nat k) (Z.to_nat (lf L)) (Z.to_nat C) (map g (surv L er)) (tally er (zrange 0 m)) (fun i => er (Z.of_nat i))) as [dec|] eqn:ED.
  - cbn [obind]. eexists. split; [reflexivity|]. split; [unfold zlen in *; now rewrite fill_in_len|]. apply fill_in_all; [exact HD|]. pose proof (decode_shape _ _ _ _ _ _ _ ED) as S. revert S. apply Forall_impl. intros c Hc'. unfold zlen. rewrite Hc'. assert (0 <= C) by (unfold col_len; nia). lia.
  - exfalso. revert ED. eapply decode_defined; [|rewrite D; discriminate]. now rewrite !map_length.
Qed.
Lemma zlen_concat n (l : list (list Z)) : Forall (fun c => zlen c = n) l -> zlen (concat l) = zlen l * n.
Proof. induction 1 as [|c l E _ IH]; [reflexivity|]. cbn [concat]. rewrite zlen_app, zlen_cons, IH, E. ring. Qed.
Lemma concat_map_ranges (V : Z -> Z) w a n : 0 <= w -> concat (map (fun i => map V (zrange ((a + i) * w) ((a + i + 1) * w))) (zrange 0 (Z.of_nat n))) = map V (zrange (a * w) ((a + Z.of_nat n) * w)).
Proof.
  intros Hw. induction n as [|n IH]; [rewrite !zrange_empty by lia; reflexivity|]. rewrite (zrange_snoc 0) by lia. replace (Z.of_nat (S n) - 1) with (Z.of_nat n) by lia. rewrite map_app, concat_app, IH. cbn [map concat]. rewrite app_nil_r, <- map_app. f_equal. replace (a + Z.of_nat (S n)) with (a + Z.of_nat n + 1) by lia. symmetry. apply zrange_split. nia.
Qed.
Lemma stripe_data V s : concat (map (scol L cs B V s) (zrange 0 m)) = map V (zrange (s * (m * C)) ((s + 1) * (m * C))).
Proof.
  rewrite (map_ext_in (scol L cs B V s) (fun i => map V (zrange ((s * m + i) * C) ((s * m + i + 1) * C)))).
  - pose proof (concat_map_ranges V C (s * m) (Z.to_nat m)) as X. rewrite Z2Nat.id in X by lia. rewrite X by (unfold col_len; nia). f_equal. f_equal; ring.
  - intros i Hi. apply in_zrange in Hi. now rewrite scol_data.
Qed.
Lemma cut_range V lo hi off len : 0 <= off -> 0 <= len -> lo <= hi -> off + len <= hi - lo -> cut (map V (zrange lo hi)) off len = Some (map V (zrange (lo + off) (lo + off + len))).
Proof.
  intros Ho Hl Hlh H. unfold cut. rewrite zlen_map. unfold zlen. rewrite zrange_length. rewrite (proj2 (Z.leb_le _ _)) by lia. f_equal. rewrite <- map_zdrop, <- map_ztake. f_equal. change (ztake len (zdrop off (zrange lo hi))) with (sub off len (zrange lo hi)). apply zrange_sub; lia.
Qed.
Lemma cut_total buf off len : 0 <= off -> 0 <= len -> off + len <= zlen buf -> exists b, cut buf off len = Some b /\ zlen b = len.
Proof. intros Ho Hl H. unfold cut. rewrite (proj2 (Z.leb_le _ _)) by lia. eexists. split; [reflexivity|]. rewrite zlen_take; [reflexivity|]. rewrite zlen_drop by lia. lia. Qed.
Lemma NoDup_map_inj (p : Z -> Z) l : (forall i j, In i l -> In j l -> p i = p j -> i = j) -> NoDup l -> NoDup (map p l).
Proof.
  induction l as [|x l IH]; intros Hp ND; cbn [map]; [constructor|]. inversion ND as [|? ? NI ND']; subst. constructor.
  - intros H. apply in_map_iff in H. destruct H as (y & E & Hy). apply NI. rewrite <- (Hp y x); auto; [now right|now left].
  - apply IH; [|exact ND']. intros i j Hi Hj. apply Hp; now right.
Qed.
Lemma member_tally it (p : Z -> Z) n : (forall i j, 0 <= i < n -> 0 <= j < n -> p i = p j -> i = j) -> (tally (fun i => member (p i) it) (zrange 0 n) <= length it)%nat.
Proof.
  intros Hp. unfold tally. rewrite <- (map_length p). apply NoDup_incl_length.
  - apply NoDup_map_inj; [|apply NoDup_filter, NoDup_zrange]. intros i j Hi Hj. apply filter_In in Hi, Hj. destruct Hi as [Hi _], Hj as [Hj _]. apply in_zrange in Hi, Hj. auto.
  - intros d Hd. apply in_map_iff in Hd. destruct Hd as (i & <- & Hi). apply filter_In in Hi. destruct Hi as [_ Hi]. now apply member_in.
Qed.

(** * One stripe *)
Context (dk : Z -> Z -> Z) (ok : Z -> Z -> bool) (junk : Z -> Z -> Z).
Context (ulba unlbas : Z) (H0 : 0 <= ulba) (H1 : 0 < unlbas).
Notation s := (ulba / (cs * m)).
Notation W := (cs * m).
Definition gcol (s i : Z) : list Z := child_read B dk ok junk (pd L s i) (po L s i * cs) C.
Lemma zlen_gcol t i : zlen (gcol t i) = C.
Proof. unfold gcol, child_read. rewrite zlen_map. unfold zlen. rewrite zrange_length. assert (0 <= C) by (unfold col_len; nia). lia. Qed.
Definition vals : list bool := map (fun i => ok (pd L s i) (po L s i * cs)) (zrange 0 k).
Definition fails : list Z := map fst (filter (fun iv => negb (snd iv)) (combine (zrange 0 (zlen vals)) vals)).
Definition cand (it : list Z) : option (list Z) :=
  let* data := rebuild L cs B (map (gcol s) (zrange 0 k)) (fun i => member i it) in
  if unlbas =? W then Some (concat data) else cut (concat data) (ulba mod W * B) (unlbas * B).
Lemma long_one_eq : read_long_one L cs B dk ok junk unlbas ulba = map cand (filter (fun it => forallb (fun i => member i it) fails) (combinations (Z.to_nat (lf L)) (zrange 0 k))).
Proof.
  assert (WP : 0 < W) by nia. unfold read_long_one. cbv zeta. assert (E : ulba - ulba mod W = s * W) by (pose proof (Z.div_mod ulba W); lia). rewrite E.
  assert (E1 : s * W / cs = s * m + 0) by (replace (s * W) with (s * m * cs) by ring; rewrite Z.div_mul by lia; lia). assert (E2 : (s * W + W) / cs = (s + 1) * m) by (replace (s * W + W) with ((s + 1) * m * cs) by ring; apply Z.div_mul; lia). rewrite E1, E2.
  assert (SP : 0 <= s) by (apply Z.div_pos; lia). rewrite iter_to_end by (auto; lia). rewrite !map_map. cbn [snd ploc]. reflexivity.
Qed.
Context (Hone : s = (ulba + unlbas - 1) / W).
Lemma one_fits : ulba mod W + unlbas <= W.
Proof. assert (WP : 0 < W) by nia. pose proof (Z.div_mod ulba W ltac:(lia)). pose proof (Z.div_mod (ulba + unlbas - 1) W ltac:(lia)). pose proof (Z.mod_pos_bound (ulba + unlbas - 1) W WP). rewrite <- Hone in *. lia. Qed.
Lemma cand_total it : In it (combinations (Z.to_nat (lf L)) (zrange 0 k)) -> exists b, cand it = Some b /\ zlen b = unlbas * B.
Proof.
  intros Hit. assert (WP : 0 < W) by nia. destruct (combos_len _ _ _ Hit) as (E & _ & _). destruct (rebuild_total (gcol s) (fun i => member i it)) as (data & E1 & E2 & E3).
  - intros i _. apply zlen_gcol.
  - rewrite <- E. apply (member_tally it (fun i => i)). auto.
  - unfold cand. rewrite E1. cbn [obind]. pose proof (zlen_concat _ _ E3) as ZC. rewrite E2 in ZC. pose proof one_fits. pose proof (Z.mod_pos_bound ulba W WP). unfold col_len in ZC. destruct (Z.eqb_spec unlbas W) as [EW|NW]; [eexists; split; [reflexivity|]; rewrite ZC, EW; ring|]. apply cut_total; nia.
Qed.
Lemma cand_true V (HV : forall x, 0 <= V x < 256) (bad : Z -> bool) : (tally bad (zrange 0 k) <= Z.to_nat (lf L))%nat ->
  (forall i, 0 <= i < k -> bad i = false -> ok (pd L s i) (po L s i * cs) = true /\ gcol s i = scol L cs B V s i) ->
  In (Some (map V (zrange (ulba * B) ((ulba + unlbas) * B)))) (read_long_one L cs B dk ok junk unlbas ulba).
Proof.
  intros Hbad Hgood. assert (WP : 0 < W) by nia. assert (SP : 0 <= s) by (apply Z.div_pos; lia). rewrite long_one_eq. destruct (extend_to bad (zrange 0 k) (Z.to_nat (lf L)) (NoDup_zrange _ _)) as (q & Q1 & Q2).
  { rewrite zrange_length. lia. }
  set (it := filter q (zrange 0 k)). apply in_map_iff. exists it. split.
  - unfold cand. assert (GS : good_stripe L cs B (scol L cs B V s)) by (apply scol_good; auto). rewrite (rebuild_true L cs B Hf H256 _ GS).
    + cbn [obind]. rewrite stripe_data. pose proof one_fits as OF. pose proof (Z.mod_pos_bound ulba W WP). pose proof (Z.div_mod ulba W ltac:(lia)) as DM. unfold col_len. destruct (Z.eqb_spec unlbas W) as [EW|NW].
      * do 2 f_equal. assert (ulba mod W = 0) by lia. f_equal; rewrite ?EW; nia.
      * rewrite cut_range by nia. do 2 f_equal. f_equal; nia.
    + rewrite <- Q2. unfold tally, it. apply Nat.eq_le_incl. f_equal. apply filter_ext_in. intros i Hi. destruct (q i) eqn:Eq; [now apply member_filter|]. destruct (member i (filter q (zrange 0 k))) eqn:Em; [|reflexivity]. apply member_filter in Em. destruct Em; congruence.
    + intros i Hi. unfold surv in Hi. assert (Hi2 : In i (filter (fun i => negb (member i it)) (zrange 0 k))) by (rewrite <- (ztake_drop m); apply in_or_app; now left). apply filter_In in Hi2. destruct Hi2 as [Hi2 Hm]. apply in_zrange in Hi2. apply Hgood; [exact Hi2|]. destruct (bad i) eqn:Eb; [|reflexivity]. exfalso. apply negb_true_iff in Hm. assert (member i it = true) by (apply member_filter; split; [now apply in_zrange|apply Q1; [now apply in_zrange|exact Eb]]). congruence.
  - apply filter_In. split; [rewrite <- Q2; apply combos_in|]. apply forallb_forall. intros i Hi. apply failures_in in Hi. destruct Hi as [Hi1 Hi2]. assert (Hi3 : i < k). { assert (HN : nth_error vals (Z.to_nat i) <> None) by congruence. apply nth_error_Some in HN. unfold vals in HN. rewrite map_length, zrange_length in HN. lia. }
    assert (Hi4 : ok (pd L s i) (po L s i * cs) = false). { apply (nth_error_nth _ _ true) in Hi2. unfold vals in Hi2. rewrite (nth_indep _ true ((fun i => ok (pd L s i) (po L s i * cs)) 0)) in Hi2 by (rewrite map_length, zrange_length; lia). rewrite (map_nth (fun i => ok (pd L s i) (po L s i * cs))), nth_zrange in Hi2 by lia. replace (0 + Z.of_nat (Z.to_nat i)) with i in Hi2 by lia. exact Hi2. }
    apply member_filter. split; [apply in_zrange; lia|]. apply Q1; [apply in_zrange; lia|]. destruct (bad i) eqn:Eb; [reflexivity|]. destruct (Hgood i ltac:(lia) Eb). congruence.
Qed.
End Total.

(** * Several stripes *)
Lemma filter_true {A} (l : list A) : filter (fun _ => true) l = l.
Proof. induction l; cbn; congruence. Qed.
Lemma flat_map_single {A X} (g : A -> X) l : flat_map (fun x => [g x]) l = map g l.
Proof. induction l; cbn; congruence. Qed.
Lemma flat_map_ext_in' {A X} (g h : A -> list X) l : (forall x, In x l -> g x = h x) -> flat_map g l = flat_map h l.
Proof. intros H. induction l as [|x l IH]; [reflexivity|]. cbn [flat_map]. rewrite (H x (or_introl eq_refl)). f_equal. apply IH. intros y Hy. apply H. now right. Qed.
Section Multi.
Context (L : layout) (cs B : Z) (HL : legal L) (HB : 0 < B) (Hcs : 0 < cs) (H256 : lk L <= 256).
Notation m := (dm L).
Notation k := (lk L).
Notation C := (col_len cs B).
Let Hf := legal_fk L HL.
Let MP := m_range L HL.
Context (pinj : forall t i j, 0 <= t -> 0 <= i < k -> 0 <= j < k -> pd L t i = pd L t j -> i = j).
Context (dk : Z -> Z -> Z) (ok : Z -> Z -> bool) (junk : Z -> Z -> Z).
Context (ulba unlbas : Z) (H0 : 0 <= ulba) (H1 : 0 < unlbas).
Notation W := (cs * m).
Notation t0 := (ulba / (cs * m)).
Notation t1 := ((ulba + unlbas - 1) / (cs * m)).
Notation a := (t0 * k).
Notation e := ((t1 + 1) * k).
Lemma t0t1 : 0 <= t0 <= t1.
Proof. assert (WP : 0 < W) by nia. split; [apply Z.div_pos; lia|apply Z.div_le_mono; lia]. Qed.
Lemma ae : 0 <= a <= e.
Proof. pose proof t0t1 as T. pose proof MP as M. clear - T M. set (x := t0) in *. set (y := t1) in *. nia. Qed.
Lemma cntd_mono d n n' : 0 <= n <= n' -> cntd L d n <= cntd L d n'.
Proof. intros H. unfold cntd. rewrite (zrange_split 0 n n') by lia. rewrite filter_app, zlen_app. pose proof (zlen_nonneg (filter (fun q => pdN L q =? d) (zrange n n'))). lia. Qed.
Definition argsN (n : Z) : Z -> option (Z * Z) := fold_left note_arg (map (fun p => id2loc L (nth_chunk L p)) (zrange a n)) (fun _ => None).
Lemma argsN_ok : forall n d, a <= n -> argsN n d = if cntd L d a =? cntd L d n then None else Some (cntd L d a, cntd L d n).
Proof.
  pose proof t0t1 as T. assert (A0 : 0 <= a) by nia. assert (G : forall j d, argsN (a + Z.of_nat j) d = if cntd L d a =? cntd L d (a + Z.of_nat j) then None else Some (cntd L d a, cntd L d (a + Z.of_nat j))).
  { induction j as [|j IH]; intros d.
    - rewrite Z.add_0_r, Z.eqb_refl. unfold argsN. rewrite zrange_empty by lia. reflexivity.
    - replace (a + Z.of_nat (S j)) with (a + Z.of_nat j + 1) by lia. set (n := a + Z.of_nat j) in *. assert (Hn : a <= n) by lia. unfold argsN. rewrite (zrange_snoc a (n + 1)) by lia. replace (n + 1 - 1) with n by lia. rewrite map_app, fold_left_app. cbn [map fold_left]. fold (argsN n).
      unfold note_arg, upd. fold (pdN L n). fold (poN L n). pose proof (rows L HL n ltac:(lia)) as R. rewrite (cntd_succ L d n) by lia. rewrite (Z.eqb_sym (pdN L n) d). destruct (Z.eqb_spec d (pdN L n)) as [->|NE].
      + rewrite IH. pose proof (cntd_mono (pdN L n) a n ltac:(lia)). rewrite R. destruct (Z.eqb_spec (cntd L (pdN L n) a) (cntd L (pdN L n) n)) as [E|E].
        * rewrite (proj2 (Z.eqb_neq _ _)) by lia. now rewrite E.
        * rewrite (proj2 (Z.eqb_neq _ _)) by lia. reflexivity.
      + rewrite Z.add_0_r. apply IH. }
  intros n d Hn. replace n with (a + Z.of_nat (Z.to_nat (n - a))) by lia. apply G.
Qed.
Definition args : Z -> option (Z * Z) := argsN e.
Lemma chunk_inside t i : t0 <= t <= t1 -> 0 <= i < k -> a <= t * k + i < e.
Proof. intros Ht Hi. nia. Qed.
Lemma args_some t i : t0 <= t <= t1 -> 0 <= i < k -> args (pd L t i) = Some (cntd L (pd L t i) a, cntd L (pd L t i) e) /\ cntd L (pd L t i) a <= po L t i < cntd L (pd L t i) e.
Proof.
  intros Ht Hi. pose proof t0t1. pose proof (chunk_inside t i Ht Hi) as CI. assert (A0 : 0 <= a) by nia. change (pd L t i) with (pdN L (t * k + i)). change (po L t i) with (poN L (t * k + i)). set (p := t * k + i) in *. pose proof (rows L HL p ltac:(lia)) as R. pose proof (cntd_mono (pdN L p) a p ltac:(lia)) as M1. pose proof (cntd_succ L (pdN L p) p ltac:(lia)) as M2. rewrite Z.eqb_refl in M2. pose proof (cntd_mono (pdN L p) (p + 1) e ltac:(lia)) as M3.
  split; [|lia]. unfold args. rewrite argsN_ok by lia. rewrite (proj2 (Z.eqb_neq _ _)) by lia. reflexivity.
Qed.
Lemma iter_all : chunk_iter L (Data (t0 * m)) (Data ((t1 + 1) * m)) = map (locN L) (zrange a e).
Proof.
  pose proof t0t1 as T. replace (t0 * m) with (t0 * m + 0) by lia. replace ((t1 + 1) * m) with ((t1 + 1) * m + 0) by lia. rewrite chunk_iter_eq.
  - rewrite !number_data by (auto; lia). rewrite !Z.add_0_r. reflexivity.
  - exact HL.
  - cbn. nia.
  - cbn. nia.
  - rewrite !number_data by (auto; lia). nia.
Qed.
Definition buf (d : Z) : list Z := match args d with None => [] | Some (s, e) => child_read B dk ok junk d (s * cs) ((e - s) * cs * B) end.
(** what the reads give for a chunk *)
Definition mcol (t i : Z) : list Z :=
  let d := pd L t i in map (fun j => if ok d (cntd L d a * cs) then dk d (po L t i * C + j) else junk d (po L t i * C + j)) (zrange 0 C).
Lemma zlen_mcol t i : zlen (mcol t i) = C.
Proof. unfold mcol. rewrite zlen_map. unfold zlen. rewrite zrange_length. assert (0 <= C) by (unfold col_len; nia). lia. Qed.
Lemma map_ext_zrange {A} (g h : Z -> A) lo hi lo' hi' dlt : lo' = lo + dlt -> hi' = hi + dlt -> (forall j, lo <= j < hi -> g j = h (j + dlt)) -> map g (zrange lo hi) = map h (zrange lo' hi').
Proof.
  intros -> -> H. rewrite (Z.add_comm lo), (Z.add_comm hi). rewrite map_zrange_shift. apply map_ext_in. intros j Hj. apply in_zrange in Hj. rewrite H by exact Hj. f_equal. lia.
Qed.
Lemma piece t i : t0 <= t <= t1 -> 0 <= i < k -> let off := (po L t i - cntd L (pd L t i) a) * C in
  0 <= off /\ off + C <= zlen (buf (pd L t i)) /\ ztake C (zdrop off (buf (pd L t i))) = mcol t i.
Proof.
  intros Ht Hi. cbv zeta. destruct (args_some t i Ht Hi) as [E R]. set (d := pd L t i) in *. set (s := cntd L d a) in *. set (x := cntd L d e) in *. set (o := po L t i) in *. assert (CP : C = cs * B) by reflexivity. assert (CP0 : 0 < C) by (rewrite CP; nia). assert (LB : (x - s) * cs * B = (x - s) * C) by (rewrite CP; ring).
  assert (O1 : 0 <= (o - s) * C) by (clear - R CP0; nia). assert (O2 : (o - s) * C + C <= (x - s) * C) by (clear - R CP0; nia).
  unfold buf. rewrite E. unfold child_read. rewrite LB. split; [exact O1|]. split.
  - rewrite zlen_map. unfold zlen. rewrite zrange_length. clear - O1 O2 CP0. lia.
  - rewrite <- map_zdrop, <- map_ztake. change (ztake C (zdrop ((o - s) * C) (zrange 0 ((x - s) * C)))) with (sub ((o - s) * C) C (zrange 0 ((x - s) * C))). rewrite zrange_sub by (clear - O1 O2 CP0; lia). unfold mcol. fold d. fold s. fold o. apply (map_ext_zrange _ _ _ _ _ _ (- ((o - s) * C))); [lia|lia|]. intros j _. assert (EA : s * cs * B + j = o * C + (j + - ((o - s) * C))) by (rewrite CP; ring). now rewrite EA.
Qed.
Definition colsof (chunks : list (chunkid * chunkloc)) : option (list (list Z)) :=
  ofold (fun cols (cl : chunkid * chunkloc) =>
                  let* a := args (l_disk (snd cl)) in
                  let off := (l_offset (snd cl) - fst a) * col_len cs B in
                  let b := buf (l_disk (snd cl)) in
                  oassert ((0 <=? off) && (off + col_len cs B <=? zlen b)) (Some (cols ++ [ztake (col_len cs B) (zdrop off b)]))) chunks [].
Lemma colsof_eq t : t0 <= t <= t1 -> colsof (map (ploc L t) (zrange 0 k)) = Some (map (mcol t) (zrange 0 k)).
Proof.
  intros Ht. unfold colsof. assert (G : forall n, (n <= Z.to_nat k)%nat -> ofold (fun cols (cl : chunkid * chunkloc) =>
                  let* a := args (l_disk (snd cl)) in
                  let off := (l_offset (snd cl) - fst a) * col_len cs B in
                  let b := buf (l_disk (snd cl)) in
                  oassert ((0 <=? off) && (off + col_len cs B <=? zlen b)) (Some (cols ++ [ztake (col_len cs B) (zdrop off b)]))) (map (ploc L t) (zrange 0 (Z.of_nat n))) [] = Some (map (mcol t) (zrange 0 (Z.of_nat n)))).
  { induction n as [|n IH]; intros Hn; [reflexivity|]. rewrite (zrange_snoc 0) by lia. replace (Z.of_nat (S n) - 1) with (Z.of_nat n) by lia. rewrite !map_app, ofold_app, IH by lia. cbn [obind map ofold ploc snd]. fold (pd L t (Z.of_nat n)). fold (po L t (Z.of_nat n)). destruct (args_some t (Z.of_nat n) Ht ltac:(lia)) as [E _]. rewrite E. cbn [obind fst]. destruct (piece t (Z.of_nat n) Ht ltac:(lia)) as (P1 & P2 & P3). rewrite (proj2 (Z.leb_le 0 _)) by exact P1. rewrite (proj2 (Z.leb_le _ _)) by exact P2. cbn [andb oassert obind]. now rewrite P3. }
  specialize (G (Z.to_nat k) (le_n _)). rewrite Z2Nat.id in G by lia. exact G.
Qed.
Definition er (E : list Z) (t i : Z) : bool := member (pd L t i) E && (i <? m).
Definition one (E : list Z) (t : Z) : option (list (list Z)) := rebuild L cs B (map (mcol t) (zrange 0 k)) (er E t).
Definition mcand (E : list Z) : option (list Z) :=
  let* data := ofold (fun acc t => let* st := one E t in Some (acc ++ concat st)) (zrange t0 (t1 + 1)) [] in
  cut data (ulba mod W * B) (unlbas * B).
Definition mreads : list (Z * Z * Z) := flat_map (fun d => match args d with None => [] | Some (s, e) => [(d, s, e)] end) (zrange 0 (ln L)).
Definition mfails : list Z := let dv := map (fun r => ok (fst (fst r)) (snd (fst r) * cs)) mreads in map fst (filter (fun iv => negb (snd iv)) (combine (zrange 0 (zlen dv)) dv)).
Lemma ofold_ext_in {A S} (f g : S -> A -> option S) l s : (forall s x, In x l -> f s x = g s x) -> ofold f l s = ofold g l s.
Proof. revert s. induction l as [|x l IH]; intros s H; [reflexivity|]. cbn [ofold]. rewrite (H s x (or_introl eq_refl)). destruct (g s x); [|reflexivity]. cbn [obind]. apply IH. intros s' y Hy. apply H. now right. Qed.
Lemma rebuild_ext cols e1 e2 : (forall i, 0 <= i < k -> e1 i = e2 i) -> zlen cols = k -> rebuild L cs B cols e1 = rebuild L cs B cols e2.
Proof.
  intros H HC. unfold rebuild. assert (E1 : filter (fun ic => negb (e1 (fst ic))) (combine (zrange 0 k) cols) = filter (fun ic => negb (e2 (fst ic))) (combine (zrange 0 k) cols)).
  { apply filter_ext_in. intros [i c] Hi. apply in_combine_l in Hi. apply in_zrange in Hi. cbn [fst]. now rewrite H. }
  assert (E2 : filter (fun i => e1 i) (zrange 0 m) = filter (fun i => e2 i) (zrange 0 m)) by (apply filter_ext_in; intros i Hi; apply in_zrange in Hi; apply H; lia).
  rewrite E1, E2. destruct (_ =? _)%nat; [reflexivity|]. assert (E3 : forall s n, decode (Z.to_nat k) (Z.to_nat (lf L)) (Z.to_nat C) s n (fun i => e1 (Z.of_nat i)) = decode (Z.to_nat k) (Z.to_nat (lf L)) (Z.to_nat C) s n (fun i => e2 (Z.of_nat i))).
  { intros s n. apply decode_ext. intros i Hi. apply H. lia. }
  rewrite E3. destruct (decode _ _ _ _ _ _); [|reflexivity]. cbn [obind]. f_equal. apply fill_in_ext. intros i Hi. apply H. rewrite zlen_take in Hi by lia. lia.
Qed.
Lemma long_multi_eq : read_long_multi L cs B dk ok junk unlbas ulba = map mcand (filter (fun it => forallb (fun i => member i it) mfails) (combinations (Z.to_nat (lf L)) (zrange 0 (ln L)))).
Proof.
  pose proof t0t1 as T. assert (WP : 0 < W) by nia. unfold read_long_multi. cbv zeta.
  assert (E0 : (ulba - ulba mod W) / cs = t0 * m) by (pose proof (Z.div_mod ulba W ltac:(lia)); replace (ulba - ulba mod W) with (t0 * m * cs) by lia; apply Z.div_mul; lia). rewrite E0. replace (t0 * m + (t1 - t0 + 1) * m) with ((t1 + 1) * m) by ring. rewrite iter_all. rewrite map_map. cbn [locN snd].
  change (fold_left note_arg (map (fun p => id2loc L (nth_chunk L p)) (zrange a e)) (fun _ => None)) with args. fold mreads. fold mfails. apply map_ext. intros E. unfold mcand.
  erewrite ofold_ext_in; [reflexivity|]. intros acc t Ht. apply in_zrange in Ht. cbv beta. replace (t * m) with (t * m + 0) by lia. rewrite iter_to_end by (auto; lia).
  match goal with |- context [obind (ofold ?f (map (ploc L t) (zrange 0 k)) []) _] => change (ofold f (map (ploc L t) (zrange 0 k)) []) with (colsof (map (ploc L t) (zrange 0 k))) end. rewrite colsof_eq by lia. cbn [obind]. unfold one. erewrite rebuild_ext; [reflexivity| |rewrite zlen_map; unfold zlen; rewrite zrange_length; lia].
  intros i Hi. rewrite nth_error_map. rewrite (nth_error_nth' _ 0) by (rewrite zrange_length; lia). rewrite nth_zrange by lia. cbn [option_map ploc]. replace (0 + Z.of_nat (Z.to_nat i)) with i by lia. fold (pd L t i). rewrite pchunk_eq by lia. unfold er. destruct (Z.ltb_spec i m); reflexivity.
Qed.

Lemma tally_weaken (p q : Z -> bool) l : (forall i, In i l -> p i = true -> q i = true) -> (tally p l <= tally q l)%nat.
Proof.
  unfold tally. intros H. induction l as [|x l IH]; cbn [filter]; [lia|]. specialize (IH (fun i Hi => H i (or_intror Hi))). specialize (H x (or_introl eq_refl)). destruct (p x); [rewrite H by reflexivity; cbn [length]; lia|]. destruct (q x); cbn [length]; lia.
Qed.
Lemma er_tally E t : 0 <= t -> length E = Z.to_nat (lf L) -> (tally (er E t) (zrange 0 k) <= Z.to_nat (lf L))%nat.
Proof.
  intros Ht HE. etransitivity; [apply (tally_weaken _ (fun i => member (pd L t i) E))|].
  - intros i _ H. unfold er in H. apply andb_true_iff in H. tauto.
  - rewrite <- HE. apply (member_tally E (pd L t)). intros i j. now apply pinj.
Qed.
Lemma er_surv E t i : In i (surv L (er E t)) -> (0 <= i < m /\ member (pd L t i) E = false) \/ (m <= i < k /\ i - m < Z.of_nat (tally (er E t) (zrange 0 m))).
Proof.
  unfold surv. intros H. rewrite (zrange_split 0 m k) in H by lia. rewrite filter_app in H. assert (EP : filter (fun i => negb (er E t i)) (zrange m k) = zrange m k).
  { rewrite <- (filter_true (zrange m k)) at 2. apply filter_ext_in. intros j Hj. apply in_zrange in Hj. unfold er. rewrite (proj2 (Z.ltb_ge j m)) by lia. now rewrite andb_false_r. }
  rewrite EP in H. unfold ztake in H. rewrite firstn_app in H. apply in_app_or in H. pose proof (filter_split (er E t) (zrange 0 m)) as S. rewrite zrange_length in S. destruct H as [H|H].
  - left. assert (H2 : In i (filter (fun i => negb (er E t i)) (zrange 0 m))) by (rewrite <- (firstn_skipn (Z.to_nat m)); apply in_or_app; now left). apply filter_In in H2. destruct H2 as [H2 H3]. apply in_zrange in H2. split; [exact H2|]. unfold er in H3. rewrite (proj2 (Z.ltb_lt i m)) in H3 by lia. rewrite andb_true_r in H3. now apply negb_true_iff.
  - right. unfold tally. set (nh := length (filter (fun i => negb (er E t i)) (zrange 0 m))) in *. assert (EQ : firstn (Z.to_nat m - nh) (zrange m k) = ztake (Z.of_nat (Z.to_nat m - nh)) (zrange m k)) by (unfold ztake; now rewrite Nat2Z.id). rewrite EQ in H. set (x := Z.of_nat (Z.to_nat m - nh)) in *. assert (X : 0 <= x) by lia.
    assert (H2 : In i (zrange m k)) by (rewrite <- (ztake_drop x); apply in_or_app; now left). apply in_zrange in H2. split; [exact H2|]. destruct (Z_lt_ge_dec (m + x) k) as [LT|GE]; [|lia].
    pose proof (zrange_sub m k 0 x ltac:(lia) X ltac:(lia)) as Y. unfold sub in Y. rewrite zdrop_0 in Y by lia. rewrite Y in H. apply in_zrange in H. lia.
Qed.
Lemma er_none E t : tally (er E t) (zrange 0 m) = 0%nat \/ exists i, 0 <= i < m /\ In (pd L t i) E.
Proof.
  unfold tally. destruct (filter (er E t) (zrange 0 m)) as [|i l] eqn:F; [now left|right]. exists i. assert (H : In i (filter (er E t) (zrange 0 m))) by (rewrite F; now left). apply filter_In in H. destruct H as [H H2]. apply in_zrange in H. split; [exact H|]. unfold er in H2. apply andb_true_iff in H2. now apply member_in.
Qed.
Lemma multi_fits : ulba mod W + unlbas <= (t1 + 1 - t0) * W.
Proof. assert (WP : 0 < W) by nia. pose proof (Z.div_mod ulba W ltac:(lia)). pose proof (Z.div_mod (ulba + unlbas - 1) W ltac:(lia)). pose proof (Z.mod_pos_bound (ulba + unlbas - 1) W WP). nia. Qed.
Lemma mcand_total E : length E = Z.to_nat (lf L) -> exists b, mcand E = Some b /\ zlen b = unlbas * B.
Proof.
  intros HE. pose proof t0t1 as T. assert (WP : 0 < W) by nia. unfold mcand.
  assert (G : forall n, (n <= Z.to_nat (t1 + 1 - t0))%nat -> exists d, ofold (fun acc t => let* st := one E t in Some (acc ++ concat st)) (zrange t0 (t0 + Z.of_nat n)) [] = Some d /\ zlen d = Z.of_nat n * (W * B)).
  { induction n as [|n IH]; intros Hn; [exists []; rewrite zrange_empty by lia; split; [reflexivity|rewrite zlen_nil; lia]|]. destruct IH as (d & D1 & D2); [lia|]. rewrite (zrange_snoc t0) by lia. replace (t0 + Z.of_nat (S n) - 1) with (t0 + Z.of_nat n) by lia. rewrite ofold_app, D1. cbn [obind ofold].
    destruct (rebuild_total L cs B HL HB Hcs H256 (mcol (t0 + Z.of_nat n)) (er E (t0 + Z.of_nat n))) as (st & S1 & S2 & S3); [intros i _; apply zlen_mcol|apply er_tally; [lia|exact HE]|]. unfold one. rewrite S1. cbn [obind]. eexists. split; [reflexivity|]. rewrite zlen_app, D2, (zlen_concat _ _ S3), S2. unfold col_len. rewrite Nat2Z.inj_succ. ring. }
  destruct (G (Z.to_nat (t1 + 1 - t0)) (le_n _)) as (d & D1 & D2). replace (t0 + Z.of_nat (Z.to_nat (t1 + 1 - t0))) with (t1 + 1) in D1 by lia. rewrite D1. cbn [obind]. pose proof multi_fits. pose proof (Z.mod_pos_bound ulba W WP). rewrite Z2Nat.id in D2 by lia. apply cut_total; [nia|nia|]. rewrite D2. replace ((t1 + 1 - t0) * (W * B)) with ((t1 + 1 - t0) * W * B) by ring. rewrite <- Z.mul_add_distr_r. apply Z.mul_le_mono_nonneg_r; lia.
Qed.
Lemma mcand_true V (HV : forall x, 0 <= V x < 256) E : length E = Z.to_nat (lf L) -> (forall t i, t0 <= t <= t1 -> In i (surv L (er E t)) -> mcol t i = scol L cs B V t i) ->
  mcand E = Some (map V (zrange (ulba * B) ((ulba + unlbas) * B))).
Proof.
  intros HE HG. pose proof t0t1 as T. assert (WP : 0 < W) by nia. unfold mcand.
  assert (G : forall n, (n <= Z.to_nat (t1 + 1 - t0))%nat -> ofold (fun acc t => let* st := one E t in Some (acc ++ concat st)) (zrange t0 (t0 + Z.of_nat n)) [] = Some (map V (zrange (t0 * (m * C)) ((t0 + Z.of_nat n) * (m * C))))).
  { induction n as [|n IH]; intros Hn; [rewrite !zrange_empty by lia; reflexivity|]. rewrite (zrange_snoc t0) by lia. replace (t0 + Z.of_nat (S n) - 1) with (t0 + Z.of_nat n) by lia. rewrite ofold_app, IH by lia. cbn [obind ofold]. set (t := t0 + Z.of_nat n) in *.
    assert (GS : good_stripe L cs B (scol L cs B V t)) by (apply scol_good; auto; lia). unfold one. rewrite (rebuild_true L cs B Hf H256 _ GS); [|apply er_tally; [lia|exact HE]|intros i Hi; apply HG; [lia|exact Hi]]. cbn [obind]. rewrite stripe_data by auto. rewrite <- map_app. do 2 f_equal. replace (t0 + Z.of_nat (S n)) with (t + 1) by lia. symmetry. apply zrange_split. assert (0 <= m * C) by (unfold col_len; nia). nia. }
  specialize (G (Z.to_nat (t1 + 1 - t0)) (le_n _)). replace (t0 + Z.of_nat (Z.to_nat (t1 + 1 - t0))) with (t1 + 1) in G by lia. rewrite G. cbn [obind]. pose proof multi_fits as MF. pose proof (Z.mod_pos_bound ulba W WP). pose proof (Z.div_mod ulba W ltac:(lia)) as DM. assert (E1 : m * C = W * B) by (unfold col_len; ring). rewrite E1.
  rewrite cut_range.
  - do 2 f_equal. f_equal; rewrite DM at 3; ring.
  - nia.
  - nia.
  - nia.
  - replace ((t1 + 1) * (W * B) - t0 * (W * B)) with ((t1 + 1 - t0) * W * B) by ring. rewrite <- Z.mul_add_distr_r. apply Z.mul_le_mono_nonneg_r; lia.
Qed.
(** the failures noted are none if no read fails, and are the disks themselves if every disk is read *)
Lemma mfails_none : (forall d, 0 <= d < ln L -> ok d (cntd L d a * cs) = true) -> mfails = [].
Proof.
  pose proof (proj2 ae) as AE. intros H2. destruct mfails as [|i l] eqn:F; [reflexivity|exfalso]. assert (Hi : In i mfails) by (rewrite F; now left). unfold mfails in Hi. cbv zeta in Hi. apply failures_in in Hi. destruct Hi as [_ Hi]. apply nth_error_In in Hi. apply in_map_iff in Hi. destruct Hi as ([[d s] x] & E & Hr). cbn [fst snd] in E. unfold mreads in Hr. apply in_flat_map in Hr. destruct Hr as (d' & Hd & Hr). apply in_zrange in Hd. unfold args in Hr. rewrite argsN_ok in Hr by exact AE. destruct (_ =? _); [destruct Hr|]. destruct Hr as [[= <- <- <-]|[]]. rewrite H2 in E by lia. discriminate.
Qed.
Lemma mfails_all : (forall d, 0 <= d < ln L -> cntd L d a < cntd L d e) -> forall i, In i mfails -> 0 <= i < ln L /\ ok i (cntd L i a * cs) = false.
Proof.
  pose proof (proj2 ae) as AE. intros H2 i Hi. assert (E : mreads = map (fun d => (d, cntd L d a, cntd L d e)) (zrange 0 (ln L))).
  { unfold mreads. rewrite <- flat_map_single. apply flat_map_ext_in'. intros d Hd. apply in_zrange in Hd. unfold args. rewrite argsN_ok by exact AE. specialize (H2 d Hd). rewrite (proj2 (Z.eqb_neq _ _)) by lia. reflexivity. }
  unfold mfails in Hi. cbv zeta in Hi. rewrite E in Hi. apply failures_in in Hi. destruct Hi as [Hi1 Hi]. rewrite map_map in Hi. cbn [fst snd] in Hi. rewrite nth_error_map in Hi. destruct (nth_error (zrange 0 (ln L)) (Z.to_nat i)) as [d|] eqn:ED; [|discriminate]. cbn [option_map] in Hi. assert (Hlt : (Z.to_nat i < length (zrange 0 (ln L)))%nat) by (apply nth_error_Some; congruence). rewrite zrange_length in Hlt. apply (nth_error_nth _ _ 0) in ED. rewrite nth_zrange in ED by (clear - Hlt; lia). assert (d = i) by (clear - ED Hi1; lia). subst d. split; [clear - Hi1 Hlt; lia|congruence].
Qed.
Lemma cntd_used d : 0 <= d -> cntd L d a < cntd L d e <-> exists t i, t0 <= t <= t1 /\ 0 <= i < k /\ pd L t i = d.
Proof.
  intros Hd. pose proof t0t1 as T. pose proof ae as AE. unfold cntd. rewrite (zrange_split 0 a e) by lia. rewrite filter_app, zlen_app. split.
  - destruct (filter (fun q => pdN L q =? d) (zrange a e)) as [|p l] eqn:F; intros H2; [change (zlen (@nil Z)) with 0 in H2; lia|]. assert (Hp : In p (filter (fun q => pdN L q =? d) (zrange a e))) by (rewrite F; now left). apply filter_In in Hp. destruct Hp as [Hp Ep]. apply in_zrange in Hp. apply Z.eqb_eq in Ep. assert (KP : 0 < k) by (clear - MP; lia). pose proof (Z.div_mod p k (Z.neq_sym _ _ (Z.lt_neq _ _ KP))) as DM. pose proof (Z.mod_pos_bound p k KP). exists (p / k), (p mod k). split; [|split; [exact H|]]; [|unfold pd, pchunk; unfold pdN in Ep; replace (p / k * k + p mod k) with p by (clear - DM; lia); exact Ep]. clear - DM Hp H KP. set (x := t0) in *. set (y := t1) in *. set (z := p / k) in *. clearbody x y z. split; nia.
  - intros (t & i & Ht & Hi & E). pose proof (chunk_inside t i Ht Hi). assert (Hin : In (t * k + i) (filter (fun q => pdN L q =? d) (zrange a e))) by (apply filter_In; split; [now apply in_zrange|apply Z.eqb_eq; exact E]). destruct (filter (fun q => pdN L q =? d) (zrange a e)) as [|x l]; [destruct Hin|]. rewrite zlen_cons. pose proof (zlen_nonneg l). lia.
Qed.
End Multi.
