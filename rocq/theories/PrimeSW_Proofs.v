(** The fixed-width PRIME-S code agrees with the unbounded model when the stripe
    numbers of a repetition fit in an i16. *)
From Coq Require Import Znumtheory.
From Verif Require Import Common PrimeS_Model PrimeS_Proofs PrimeS_Proofs2 PrimeSW_Model.

Lemma cast_id w x : wmin w <= x < wmin w + wsize w -> cast w x = x.
Proof. intros H. unfold cast. rewrite Z.mod_small by lia. lia. Qed.

Lemma ar_ok md w x : wmin w <= x < wmin w + wsize w -> ar md w x = Some x.
Proof.
  intros H. destruct md; cbn [ar].
  - now rewrite cast_id.
  - unfold in_range. destruct (Z.leb_spec (wmin w) x), (Z.ltb_spec x (wmin w + wsize w)); auto; lia.
Qed.

Lemma dassert_ok md b : b = true -> dassert md b = Some tt.
Proof. intros ->. now destruct md. Qed.

Lemma i16_lo : wmin I16 = -32768. Proof. reflexivity. Qed.
Lemma i16_sz : wsize I16 = 65536. Proof. reflexivity. Qed.
Lemma i32_lo : wmin I32 = -2147483648. Proof. reflexivity. Qed.
Lemma i32_sz : wsize I32 = 4294967296. Proof. reflexivity. Qed.
Lemma u8_lo : wmin U8 = 0. Proof. reflexivity. Qed.
Lemma u8_sz : wsize U8 = 256. Proof. reflexivity. Qed.
Lemma u16_lo : wmin U16 = 0. Proof. reflexivity. Qed.
Lemma u16_sz : wsize U16 = 65536. Proof. reflexivity. Qed.
Lemma u64_lo : wmin U64 = 0. Proof. reflexivity. Qed.
Lemma u64_sz : wsize U64 = 18446744073709551616. Proof. reflexivity. Qed.

Ltac wr := rewrite ?i16_lo, ?i16_sz, ?i32_lo, ?i32_sz, ?u8_lo, ?u8_sz, ?u16_lo, ?u16_sz,
             ?u64_lo, ?u64_sz in *.
Ltac inr := wr; lia.

Lemma mul_bound a b A B : 0 <= a <= A -> 0 <= b <= B -> 0 <= a * b <= A * B.
Proof. intros Ha Hb. split; [nia|]. apply Z.mul_le_mono_nonneg; lia. Qed.

Lemma existsb_exists_map (g : Z -> Z) (l : list Z) t :
  existsb (Z.eqb t) (map g l) = existsb (fun i => g i =? t) l.
Proof.
  induction l as [|x l IH]; [reflexivity|]. cbn [map existsb]. rewrite IH, Z.eqb_sym. reflexivity.
Qed.

(** What the constructor accepts is a valid layout. *)
Definition layout_of (n k f : Z) : layout := Layout n k f.

Lemma new_valid md n k f P : new md n k f = Some P -> valid_layout (layout_of n k f) /\ n <= 215.
Proof.
  unfold new. destruct (is_prime_spec n) as (b & -> & Hb). destruct b; [|discriminate].
  destruct ((n <=? 215) && ((1 <? k) && (k <=? n)) && ((0 <? f) && (f <? k))) eqn:E; [|discriminate].
  intros _. split; [|lia]. split; cbn; [tauto|lia|lia].
Qed.

Section W.
Variables n k f : Z.
Let L := layout_of n k f.
Hypothesis HV : valid_layout L.
Hypothesis Hn181 : n <= 181.

Notation m := (gm L).

Lemma bounds : 1 < n <= 181 /\ 1 < k <= n /\ 0 < f < k /\ 0 < m < n /\ m = k - f /\
  0 <= gm_inv L < n.
Proof.
  pose proof (n_pos L HV). pose proof (m_bound L HV). destruct (minv_spec L HV).
  destruct HV. cbn in *. repeat split; try lia. 
Qed.

Definition P0 : primes := PS n k m (gm_inv L) f (datachunks L) (depth L).

Lemma dc_bound : 0 < datachunks L <= 181 * 180 * 180.
Proof.
  pose proof (dc_pos L HV). destruct bounds as (Hn & Hk & Hf & Hm & Hme & Hmi).
  split; [lia|]. unfold datachunks, stripes. cbn [ln L layout_of].
  assert (n * (n - 1) <= 181 * 180) by nia. nia.
Qed.

Lemma depth_bound : 0 < depth L <= 32580.
Proof.
  pose proof (depth_pos L HV). destruct bounds as (Hn & Hk & Hf & Hm & Hme & Hmi).
  split; [lia|]. unfold depth; cbn [ln lk L layout_of]. nia.
Qed.

Lemma new_P0 md : new md n k f = Some P0.
Proof.
  destruct bounds as (Hn & Hk & Hf & Hm & Hme & Hmi). pose proof dc_bound. pose proof depth_bound.
  unfold new. destruct (is_prime_spec n) as (b & -> & Hb).
  assert (b = true) as -> by (apply Hb; apply HV).
  replace ((n <=? 215) && ((1 <? k) && (k <=? n)) && ((0 <? f) && (f <? k))) with true by lia.
  unfold depth in *. cbn [ln lk L layout_of] in *.
  rewrite ar_ok by inr. cbn [obind].
  rewrite (cast_id U8 k), (cast_id U8 f) by inr.
  rewrite ar_ok by inr. cbn [obind]. rewrite <- Hme.
  fold (gm_inv L) in *. change (invmod m n) with (gm_inv L).
  rewrite (cast_id U8 (gm_inv L)) by inr.
  rewrite ar_ok by (wr; nia). cbn [obind].
  change (n * (n - 1) * m) with (datachunks L).
  rewrite ar_ok by inr. cbn [obind].
  rewrite cast_id by inr. reflexivity.
Qed.

Section Id.
Variable c : coord.
Hypothesis Hc : valid_coord L c.
Hypothesis Haddr : address (id_of L c) < 2^64 - 2^16.

Lemma cb : 0 <= co_r c /\ 0 <= co_z c < n - 1 /\ 0 <= co_t c < n /\ 0 <= co_b c < k /\
  0 <= co_s L c < n * (n - 1) /\ n * (n - 1) <= 32580.
Proof.
  pose proof (co_s_range L c Hc) as Hs. destruct Hc as (Hr & Hz & Ht & Hb).
  cbn in *. destruct bounds as (Hn & _). repeat split; try lia; nia.
Qed.

Lemma w_id2loc_int_ok md : w_id2loc_int md P0 (id_of L c) = Some (id2loc_int L (id_of L c)).
Proof.
  destruct bounds as (Hn & Hk & Hf & Hm & Hme & Hmi). pose proof dc_bound as Hdc.
  destruct cb as (Hr & Hz & Ht & Hb & Hs & Hnn).
  destruct (address_split L HV c Hc) as (e & He & Ha & He1 & He2 & Hs' & Hsm).
  destruct (id2loc_int_id_of L HV c Hc) as (e' & He' & E & He1' & He2').
  assert (e' = e) by (destruct (Z.lt_ge_cases (co_b c) m); [rewrite He1, He1'|rewrite He2, He2']; auto; lia).
  subst e'.
  assert (Ea : address (id_of L c) mod datachunks L = co_s L c * m + e).
  { unfold id2loc_int, id2rep_and_iter in E. now injection E. }
  assert (Er : address (id_of L c) / datachunks L = co_r c).
  { unfold id2loc_int, id2rep_and_iter in E. now injection E. }
  unfold w_id2loc_int, w_id2rep_and_iter. cbn [wdc wm wn wk P0].
  rewrite (cast_id U64 (datachunks L)) by inr. rewrite Ea, Er.
  rewrite dassert_ok by (apply Z.ltb_lt; lia). cbn [obind].
  rewrite (cast_id I32) by inr.
  assert (Hmn : 0 < m * n) by (apply Z.mul_pos_pos; lia).
  pose proof (mul_bound m n 180 181 ltac:(lia) ltac:(lia)).
  rewrite ar_ok by (wr; lia). cbn [obind].
  assert (Ez : (co_s L c * m + e) / (m * n) = co_z c).
  { unfold id2loc_int, id2rep_and_iter in E. injection E. intros E1 _ _ _ _.
    rewrite Ea in E1. exact E1. }
  rewrite Z.quot_div_nonneg by lia. rewrite Ez.
  rewrite dassert_ok by (apply Z.leb_le; lia). cbn [obind].
  rewrite (cast_id I16 (co_z c)) by inr.
  rewrite Z.quot_div_nonneg by lia.
  replace ((co_s L c * m + e) / m) with (co_s L c)
    by (rewrite Z.add_comm, Z.div_add, Z.div_small by lia; lia).
  rewrite dassert_ok by (apply Z.leb_le; lia). cbn [obind].
  rewrite (Z.mod_small (co_z c)) by lia.
  rewrite ar_ok by inr. cbn [obind]. rewrite (cast_id I16) by inr.
  rewrite E. reflexivity.
Qed.

Lemma w_o2_ok md s disk y_inv : 0 <= s -> 0 <= disk < n -> 0 <= y_inv < n ->
  forall js acc, (forall j, In j js -> 0 <= j < f) -> 0 <= acc -> acc + Z.of_nat (length js) <= 1000 ->
  w_o2 md P0 s disk y_inv js acc =
  Some (fold_left (fun acc j =>
                let cb_stripe := ((disk * y_inv - j) * gm_inv L - 1) mod n in
                (if s mod n >? cb_stripe then 1 else 0) + acc) js acc).
Proof.
  intros Hs Hd Hy. destruct bounds as (Hn & Hk & Hf & Hm & Hme & Hmi).
  induction js as [|j js IH]; intros acc Hjs Hacc Hlen; [reflexivity|].
  assert (Hj : 0 <= j < f) by (apply Hjs; now left).
  cbn [w_o2 fold_left wn wm_inv P0]. cbn [length] in Hlen.
  assert (0 <= disk * y_inv <= 180 * 180) by nia.
  rewrite ar_ok by inr. cbn [obind].
  rewrite ar_ok by inr. cbn [obind].
  assert (-180 * 180 <= (disk * y_inv - j) * gm_inv L <= 180 * 180 * 180) by nia.
  rewrite ar_ok by inr. cbn [obind].
  rewrite ar_ok by inr. cbn [obind]. cbn zeta.
  rewrite ar_ok by (wr; destruct (s mod n >? _); lia). cbn [obind].
  apply IH.
  - intros x Hx. apply Hjs. now right.
  - destruct (s mod n >? _); lia.
  - destruct (s mod n >? _); lia.
Qed.

Definition ows_fits (md : mode) : Prop := md = Debug -> n * (n - 1) * m <= 32768.

Lemma w_ows_ok md : ows_fits md ->
  let x := id2loc_int L (id_of L c) in
  w_ows md (id_of L c) (c_a x) (c_s x) m = Some (co_b c).
Proof.
  intros Hfit. destruct bounds as (Hn & Hk & Hf & Hm & Hme & Hmi).
  destruct cb as (Hr & Hz & Ht & Hb & Hs & Hnn).
  destruct (id2loc_int_id_of L HV c Hc) as (e & He & E & He1 & He2). cbn zeta. rewrite E. cbn [c_a c_s].
  unfold w_ows, id_of. cbn zeta. destruct (Z.ltb_spec (co_b c) m) as [Hlt|Hge].
  - rewrite He1 by lia. destruct md.
    + cbn [ar dassert obind]. f_equal.
      set (X := co_s L c * m).
      assert (HX : 0 <= X <= 32580 * 180) by (unfold X; nia).
      unfold cast; cbn [wmin wsize].
      assert (H1 : exists q, (X - - 2 ^ 15) mod 2 ^ 16 + - 2 ^ 15 = X - q * 65536).
      { exists ((X + 32768) / 65536). pose proof (Z.div_mod (X + 32768) 65536 ltac:(lia)).
        change (- 2^15) with (-32768). change (2^16) with 65536.
        replace (X - -32768) with (X + 32768) by lia. lia. }
      destruct H1 as [q Hq]. rewrite Hq.
      assert (H2 : exists q', (X + co_b c - (X - q * 65536) - - 2 ^ 31) mod 2 ^ 32 + - 2 ^ 31
                 = co_b c + 65536 * q').
      { change (- 2^31) with (-2147483648). change (2^32) with 4294967296.
        set (Y := X + co_b c - (X - q * 65536) - -2147483648).
        exists (q - 65536 * (Y / 4294967296)).
        pose proof (Z.div_mod Y 4294967296 ltac:(lia)). unfold Y in *. lia. }
      destruct H2 as [q' Hq']. rewrite Hq'. change (2^8) with 256. rewrite Z.sub_0_r, Z.add_0_r.
      replace (co_b c + 65536 * q') with (co_b c + (256 * q') * 256) by ring.
      rewrite Z.mod_add by lia. apply Z.mod_small. lia.
    + specialize (Hfit eq_refl).
      assert (co_s L c * m <= 32767) by nia.
      rewrite ar_ok by (wr; nia). cbn [obind].
      rewrite ar_ok by (wr; lia). cbn [obind].
      rewrite dassert_ok by (apply Z.ltb_lt; lia). cbn [obind]. f_equal.
      rewrite cast_id by inr. lia.
  - rewrite ar_ok by (wr; lia). cbn [obind].
    rewrite dassert_ok by (apply Z.ltb_lt; lia). cbn [obind]. f_equal.
    rewrite cast_id by inr. lia.
Qed.

Lemma w_id2loc_ok md : ows_fits md -> w_id2loc md P0 (id_of L c) = Some (id2loc L (id_of L c)).
Proof.
  intros Hfit. destruct bounds as (Hn & Hk & Hf & Hm & Hme & Hmi).
  pose proof dc_bound as Hdc. pose proof depth_bound as Hdp.
  destruct cb as (Hr & Hz & Ht & Hb & Hs & Hnn).
  pose proof (id2loc_id_of L HV c Hc) as Hloc.
  pose proof (cnt_bounds L HV c Hc) as Hcnt.
  pose proof (w_ows_ok md Hfit) as Hows. cbn zeta in Hows.
  pose proof (ows_id_of L HV c Hc) as Hows'.
  unfold w_id2loc. rewrite w_id2loc_int_ok. cbn [obind wm wk wn wdepth P0].
  rewrite Hows. cbn [obind].
  rewrite dassert_ok by (apply Z.ltb_lt; lia). cbn [obind].
  assert (Hid : id2loc L (id_of L c) = Loc (diskof L c)
            (offset_within_iteration L (id2loc_int L (id_of L c)) (co_b c) (diskof L c) + co_r c * depth L)).
  { unfold id2loc. rewrite Hows'.
    destruct (id2loc_int_id_of L HV c Hc) as (e & He & E & _). rewrite E. reflexivity. }
  assert (Howi : offset_within_iteration L (id2loc_int L (id_of L c)) (co_b c) (diskof L c)
                 = k * co_z c + cnt L (diskof L c) (co_y c) (co_t c)).
  { destruct (id2loc_int_id_of L HV c Hc) as (e & He & E & _). rewrite E.
    apply owi_spec; assumption. }
  destruct (address_split L HV c Hc) as (e0 & He0 & Ha & _ & _ & _ & Hsm).
  destruct (id2loc_int_id_of L HV c Hc) as (e & He & E & _). rewrite E in *. cbn [c_s c_y c_r].
  assert (B1 : 0 <= co_s L c * m <= 32579 * 180) by (apply mul_bound; lia).
  rewrite ar_ok by inr. cbn [obind]. rewrite ar_ok by inr. cbn [obind].
  assert (B2 : 0 <= (co_s L c * m + co_b c) * co_y c <= (32579 * 180 + 180) * 180).
  { apply mul_bound; [lia|unfold co_y; lia]. }
  rewrite ar_ok by inr. cbn [obind]. fold (diskof L c).
  change ((co_s L c * m + co_b c) * co_y c mod n) with (diskof L c).
  pose proof (diskof_range L HV c) as Hdr. cbn [ln L layout_of] in Hdr. fold L in Hdr.
  rewrite (cast_id I16) by inr. rewrite (cast_id U64 (depth L)) by inr.
  assert (B3 : 0 <= co_r c * depth L <= address (id_of L c) - (co_s L c * m + e0)).
  { rewrite Ha. split; [apply Z.mul_nonneg_nonneg; lia|].
    enough (depth L <= datachunks L).
    { pose proof (Z.mul_le_mono_nonneg_l (depth L) (datachunks L) (co_r c) ltac:(lia) ltac:(lia)). lia. }
    unfold depth, datachunks, stripes. cbn [ln lk L layout_of].
    assert (k <= n * m).
    { pose proof (Z.mul_le_mono_nonneg_l 1 m n ltac:(lia) ltac:(lia)). lia. }
    replace (n * (n - 1) * m) with (n * m * (n - 1)) by ring.
    apply Z.mul_le_mono_nonneg_r; lia. }
  change (2^64 - 2^16) with 18446744073709486080 in Haddr.
  rewrite ar_ok by inr. cbn [obind].
  unfold w_owi. cbn [c_s c_y c_z wn wm wf P0].
  rewrite ar_ok by inr. cbn [obind]. rewrite ar_ok by inr. cbn [obind].
  rewrite Z.quot_div_nonneg by lia.
  assert (B5 : 0 <= f * co_z c <= 180 * 180) by (apply mul_bound; lia).
  rewrite ar_ok by (wr; lia). cbn [obind].
  destruct (yinv_spec L HV (co_y c)) as [_ Hyi]; [unfold co_y; cbn; lia|].
  cbn [ln L layout_of] in Hyi.
  rewrite w_o2_ok; [|lia|lia|lia| |lia|].
  2:{ intros j Hj. now apply in_zrange in Hj. }
  2:{ rewrite zrange_length. lia. }
  cbn [obind].
  set (o2 := fold_left _ _ _).
  assert (Ho2 : 0 <= o2 <= f).
  { unfold o2. rewrite (fold_count (fun j => co_s L c mod n >? ((diskof L c * invmod (co_y c) n - j) * gm_inv L - 1) mod n)).
    pose proof (count_nonneg (fun j => co_s L c mod n >? ((diskof L c * invmod (co_y c) n - j) * gm_inv L - 1) mod n) (zrange 0 f)).
    pose proof (count_le_length (fun j => co_s L c mod n >? ((diskof L c * invmod (co_y c) n - j) * gm_inv L - 1) mod n) (zrange 0 f)) as H1.
    rewrite zrange_length in H1. lia. }
  assert (B4 : 0 <= (co_s L c * m + co_b c) / n <= 32579 * 180 + 180).
  { split; [apply Z.div_pos; lia|]. apply Z.div_le_upper_bound; lia. }
  rewrite ar_ok by inr. cbn [obind].
  rewrite ar_ok by inr. cbn [obind].
  assert (Eo : (co_s L c * m + co_b c) / n + f * co_z c + o2
      = offset_within_iteration L (Cli (co_s L c * m + e) (co_r c) (co_s L c) (co_y c) (co_z c)) (co_b c) (diskof L c))
    by reflexivity.
  rewrite Eo.
  assert (B6 : 0 <= offset_within_iteration L (Cli (co_s L c * m + e) (co_r c) (co_s L c) (co_y c) (co_z c)) (co_b c) (diskof L c) <= (32579 * 180 + 180) + 180 * 180 + 181) by (rewrite <- Eo; lia).
  rewrite (cast_id U64) by inr.
  rewrite ar_ok; [cbn [obind]; rewrite Hid; reflexivity|].
  rewrite Howi in *. cbn [lk L layout_of] in *.
  assert (Hkz : k * co_z c + cnt L (diskof L c) (co_y c) (co_t c) <= depth L - 1).
  { unfold depth; cbn [ln lk L layout_of].
    pose proof (Z.mul_le_mono_nonneg_l (co_z c) (n - 2) k ltac:(lia) ltac:(lia)). lia. }
  inr.
Qed.

Lemma w_set_ok md disk y_inv : 0 <= disk < n -> 0 <= y_inv < n ->
  forall is, (forall i, In i is -> 0 <= i < k) ->
  w_set md P0 disk y_inv is = Some (map (fun i => ((disk * y_inv - i) * gm_inv L) mod n) is).
Proof.
  intros Hd Hy. destruct bounds as (Hn & Hk & Hf & Hm & Hme & Hmi).
  induction is as [|i is IH]; intros His; [reflexivity|].
  assert (Hi : 0 <= i < k) by (apply His; now left).
  cbn [w_set wn wm_inv P0 map].
  assert (0 <= disk * y_inv <= 180 * 180) by (apply mul_bound; lia).
  rewrite ar_ok by inr. cbn [obind]. rewrite ar_ok by inr. cbn [obind].
  assert (-181 * 181 <= (disk * y_inv - i) * gm_inv L <= 180 * 180 * 180) by nia.
  rewrite ar_ok by inr. cbn [obind].
  rewrite IH by (intros x Hx; apply His; now right). reflexivity.
Qed.

Lemma w_loc2id_ok md : w_loc2id md P0 (id2loc L (id_of L c)) = Some (id_of L c).
Proof.
  destruct bounds as (Hn & Hk & Hf & Hm & Hme & Hmi).
  pose proof dc_bound as Hdc. pose proof depth_bound as Hdp.
  destruct cb as (Hr & Hz & Ht & Hb & Hs & Hnn).
  pose proof (cnt_bounds L HV c Hc) as Hw.
  pose proof (mod_stripe_b L HV c Hc) as Hb'.
  pose proof (sigma_diskof L HV c Hc) as Hsig.
  destruct (row_split L HV (co_r c) (co_z c) _ Hr Hz Hw) as (E1 & E2 & E3).
  destruct (address_split L HV c Hc) as (e0 & He0 & Ha & He1 & He2 & _ & Hsm).
  change (2^64 - 2^16) with 18446744073709486080 in Haddr.
  pose proof (diskof_range L HV c) as Hdr. change (ln L) with n in *; change (lk L) with k in *.
  rewrite id2loc_id_of by assumption.
  unfold w_loc2id; cbn [l_offset l_disk wdepth wk wn wm wdc P0].
  rewrite (cast_id U64 (depth L)) by inr.
  change (ln L) with n in *; change (lk L) with k in *.
  rewrite E1, E2.
  set (w := cnt L (diskof L c) (co_y c) (co_t c)) in *.
  assert (Bkz : 0 <= k * co_z c <= 181 * 180) by (apply mul_bound; lia).
  rewrite (cast_id I32) by inr.
  rewrite Z.quot_div_nonneg by lia. rewrite E3.
  rewrite dassert_ok by (apply Z.ltb_lt; lia). cbn [obind].
  rewrite (cast_id I16 (co_z c)) by inr.
  rewrite (Z.mod_small (co_z c)) by lia. rewrite ar_ok by inr. cbn [obind].
  fold (co_y c).
  destruct (yinv_spec L HV (co_y c)) as [_ Hyi]; [unfold co_y; cbn; lia|].
  change (ln L) with n in *.
  rewrite w_set_ok; [|lia|lia|intros i Hi; now apply in_zrange in Hi]. cbn [obind].
  rewrite ar_ok by inr. cbn [obind].
  rewrite ar_ok by inr. cbn [obind].
  rewrite (cast_id U64 (k * co_z c + w - k * co_z c)) by inr.
  replace (k * co_z c + w - k * co_z c) with w by lia.
  assert (Eset : filter (fun t => existsb (Z.eqb t)
            (map (fun i => ((diskof L c * invmod (co_y c) n - i) * gm_inv L) mod n) (zrange 0 k))) (zrange 0 n)
          = stripe_set L (diskof L c) (invmod (co_y c) n)).
  { unfold stripe_set. apply filter_ext. intros t.
    rewrite existsb_exists_map. reflexivity. }
  rewrite Eset.
  pose proof (nth_stripe_set L HV (diskof L c) (co_y c) (co_t c)) as Hnth.
  change (ln L) with n in *.
  fold w in Hnth. rewrite Hnth; [|lia|apply (member_spec L); change (lk L) with k; eauto]. cbn [obind].
  assert (Bnz : 0 <= n * co_z c <= 32579 - co_t c) by (unfold co_s in Hs; change (ln L) with n in *; lia).
  rewrite ar_ok by inr. cbn [obind]. rewrite (cast_id I16 (co_t c)) by inr.
  rewrite ar_ok by inr. cbn [obind].
  replace (co_t c + n * co_z c) with (co_s L c) by (unfold co_s; change (ln L) with n; lia).
  assert (0 <= diskof L c * invmod (co_y c) n <= 180 * 180) by (apply mul_bound; lia).
  rewrite ar_ok by inr. cbn [obind].
  assert (B1 : 0 <= co_s L c * m <= 32579 * 180) by (apply mul_bound; lia).
  rewrite ar_ok by inr. cbn [obind].
  rewrite ar_ok by inr. cbn [obind].
  rewrite Hb'. rewrite (cast_id U8) by inr.
  rewrite (cast_id U64 (datachunks L)), (cast_id U64 (co_s L c)) by inr.
  assert (B2 : 0 <= co_r c * datachunks L) by (apply Z.mul_nonneg_nonneg; lia).
  rewrite ar_ok by inr. cbn [obind].
  rewrite ar_ok by inr. cbn [obind].
  rewrite ar_ok by inr. cbn [obind].
  rewrite Z.geb_leb. unfold id_of. cbn zeta.
  destruct (Z.leb_spec m (co_b c)), (Z.ltb_spec (co_b c) m); try lia.
  - reflexivity.
  - rewrite ar_ok by inr. reflexivity.
Qed.

End Id.

End W.
