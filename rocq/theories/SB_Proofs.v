(** Lemmas for SB_Props.v *)
From Verif Require Import Common SG_Model SG_Props SB_Model.

Notation B := BYTES_PER_LBA.
Lemma Bpos : 0 < B. Proof. reflexivity. Qed.

Lemma fold_sg_len l : forall a, fold_left (fun acc b => acc + zlen b) l a = a + zlen (concat (l : sglist)).
Proof.
  induction l as [|x l IH]; intros a; cbn [fold_left concat].
  - change (zlen []) with 0. lia.
  - rewrite IH, zlen_app. lia.
Qed.
Lemma sg_len_concat l : sglist_len l = zlen (concat l).
Proof. unfold sglist_len. rewrite fold_sg_len. lia. Qed.
Lemma sb_len_eq s : sb_len s = zlen (concat (sb_buf s)).
Proof. apply sg_len_concat. Qed.

(** number of zero bytes needed to complete an LBA *)
Definition lba_pad (n : Z) : Z := (- n) mod B.
Definition padded (v : list Z) : list Z := v ++ zrepeat 0 (lba_pad (zlen v)).

Lemma lba_pad_bound n : 0 <= lba_pad n < B.
Proof. apply Z.mod_pos_bound. apply Bpos. Qed.
Lemma lba_pad_mult n : exists q, n + lba_pad n = q * B.
Proof.
  pose proof Bpos. exists (- ((- n) / B)). unfold lba_pad.
  pose proof (Z.div_mod (- n) B ltac:(lia)). lia.
Qed.
Lemma lba_pad_of_mult q : lba_pad (q * B) = 0.
Proof. unfold lba_pad. rewrite <- Z.mul_opp_l. apply Z.mod_mul. pose proof Bpos; lia. Qed.
Lemma lba_pad_nonmult n : n mod B <> 0 -> lba_pad n = B - n mod B.
Proof. intros H. unfold lba_pad. apply Z.mod_opp_l_nz; [pose proof Bpos; lia|exact H]. Qed.
Lemma zlen_padded v : zlen (padded v) = zlen v + lba_pad (zlen v).
Proof. unfold padded. pose proof (lba_pad_bound (zlen v)). rewrite zlen_app, zlen_repeat; lia. Qed.
Lemma mult_mod q : (q * B) mod B = 0.
Proof. apply Z.mod_mul. pose proof Bpos; lia. Qed.
Lemma mult_div q : (q * B) / B = q.
Proof. apply Z.div_mul. pose proof Bpos; lia. Qed.

(** A well-formed stripe buffer holding the bytes [c]. *)
Definition sb_holds (s : sbuf) (lba : Z) (c : list Z) : Prop :=
  concat (sb_buf s) = c /\ Forall (fun v => v <> []) (sb_buf s) /\ sb_lba s = lba /\
  exists q, zlen c = q * B.

Lemma sb_holds_empty s lba c : sb_holds s lba c -> (sb_is_empty s = true <-> c = []).
Proof.
  intros (H1 & H2 & _ & _). unfold sb_is_empty. destruct (sb_buf s) as [|v l].
  - split; auto.
  - split; [discriminate|]. intros ->. cbn in H1. apply app_eq_nil in H1. destruct H1 as [H1 _].
    inversion H2; contradiction.
Qed.

Lemma sb_holds_next s lba c : sb_holds s lba c -> sb_next_lba s = Some (lba + zlen c / B).
Proof.
  intros (H1 & H2 & H3 & q & H4). unfold sb_next_lba. rewrite sb_len_eq, H1, H3, H4, mult_mod. reflexivity.
Qed.

Lemma sb_holds_pop s lba c : sb_holds s lba c ->
  exists sgl s', sb_pop s = Some (sgl, s') /\ concat sgl = c /\ sb_holds s' (lba + zlen c / B) [].
Proof.
  intros H. unfold sb_pop. rewrite (sb_holds_next _ _ _ H). eexists _, _. split; [reflexivity|].
  split; [apply H|]. split; [reflexivity|]. split; [constructor|]. split; [reflexivity|]. exists 0. reflexivity.
Qed.

Lemma zdrop_ge {A} i (l : list A) : zlen l <= i -> zdrop i l = [].
Proof. apply zdrop_all. Qed.

Lemma not_nil_zlen {A} (v : list A) : 0 < zlen v -> v <> [].
Proof. intros H E. subst v. change (zlen []) with 0 in H. lia. Qed.

Lemma sb_fill_spec sl s lba c v : sb_holds s lba c -> zlen c <= sl * B ->
  let S := sl * B in
  exists s' v', sb_fill S s v = Some (s', v') /\
    (zlen v <= S - zlen c -> v' = [] /\ sb_holds s' lba (c ++ padded v)) /\
    (S - zlen c < zlen v -> v' = zdrop (S - zlen c) v /\ sb_holds s' lba (c ++ ztake (S - zlen c) v)).
Proof.
  intros H Hc S. pose proof Bpos as HB. pose proof H as (H1 & H2 & H3 & q & H4).
  unfold sb_fill. rewrite sb_len_eq, H1. destruct (Z.ltb_spec (S - zlen c) 0); [lia|].
  set (get := Z.min (S - zlen c) (zlen v)). pose proof (zlen_nonneg v) as Hv.
  destruct (Z.gtb_spec get 0).
  - assert (Htk : ztake get v <> []).
    { apply not_nil_zlen. rewrite zlen_take by lia. lia. }
    destruct (Z.eqb_spec (get mod B) 0) as [Em|Em].
    + eexists _, _. split; [reflexivity|]. cbn [sb_buf sb_lba].
      assert (Hcat : concat (sb_buf s ++ [ztake get v]) = c ++ ztake get v).
      { rewrite concat_app, H1. cbn [concat]. now rewrite app_nil_r. }
      assert (Hm : exists q, zlen (c ++ ztake get v) = q * B).
      { rewrite zlen_app, zlen_take by lia. exists (q + get / B).
        pose proof (Z.div_mod get B ltac:(lia)). rewrite Em in *. lia. }
      split; intros Hle.
      * assert (Eg : get = zlen v) by lia.
        split; [apply zdrop_ge; lia|].
        assert (Ep : padded v = ztake get v).
        { unfold padded. rewrite Eg, ztake_all by lia.
          rewrite <- (app_nil_r v) at 3. f_equal. pose proof (Z.div_mod get B ltac:(lia)) as Hd.
          rewrite Em in Hd. replace (zlen v) with ((get / B) * B) by lia. rewrite lba_pad_of_mult. reflexivity. }
        rewrite Ep. unfold sb_holds; cbn [sb_buf sb_lba].
        split; [exact Hcat|]. split; [|split; [exact H3|exact Hm]].
        apply Forall_app. split; [exact H2|]. constructor; [exact Htk|constructor].
      * assert (Eg : get = S - zlen c) by lia. rewrite <- Eg.
        split; [reflexivity|].
        split; [exact Hcat|]. split; [|split; [exact H3|exact Hm]].
        apply Forall_app. split; [exact H2|]. constructor; [exact Htk|constructor].
    + assert (Eg : get = zlen v).
      { destruct (Z.le_gt_cases (zlen v) (S - zlen c)); [lia|]. exfalso. apply Em.
        assert (E : get = (sl - q) * B) by lia. rewrite E. apply mult_mod. }
      rewrite (zdrop_ge get v) by lia. change (zlen [] =? 0) with true. cbv iota.
      eexists _, _. split; [reflexivity|]. split; [intros _|lia].
      split; [reflexivity|]. unfold sb_holds; cbn [sb_buf sb_lba].
      assert (Hp : lba_pad (zlen v) = B - zlen v mod B).
      { apply lba_pad_nonmult. rewrite <- Eg. exact Em. }
      pose proof (Z.mod_pos_bound (zlen v) B HB) as Hmb. rewrite Eg in Em.
      assert (Hz : ztake (B - zlen v mod B) zero_region = zrepeat 0 (lba_pad (zlen v))).
      { rewrite Hp. apply ztake_repeat. unfold ZERO_REGION_LEN. lia. }
      rewrite Eg, Hz. rewrite (ztake_all (zlen v) v) by lia.
      split; [|split; [|split; [exact H3|]]].
      * rewrite !concat_app, H1. cbn [concat]. rewrite !app_nil_r, <- app_assoc. reflexivity.
      * apply Forall_app. split; [apply Forall_app; split; [exact H2|]|].
        -- constructor; [|constructor]. rewrite <- (ztake_all (zlen v) v) by lia. rewrite <- Eg. exact Htk.
        -- constructor; [|constructor]. apply not_nil_zlen. rewrite zlen_repeat; lia.
      * rewrite zlen_app, zlen_padded. destruct (lba_pad_mult (zlen v)) as [q2 E2].
        exists (q + q2). lia.
  - exists s, v. split; [reflexivity|]. split; intros Hle.
    + assert (zlen v = 0 \/ S - zlen c = 0) as [E|E] by lia; [|assert (zlen v = 0) by lia].
      * apply zlen_0_nil in E. subst v. split; [reflexivity|].
        replace (padded []) with (@nil Z) by reflexivity. rewrite app_nil_r. exact H.
      * assert (E' : v = []) by (apply zlen_0_nil; lia). subst v. split; [reflexivity|].
        replace (padded []) with (@nil Z) by reflexivity. rewrite app_nil_r. exact H.
    + assert (E : S - zlen c = 0) by lia. rewrite E, zdrop_0, ztake_0, app_nil_r by lia. auto.
Qed.

Lemma sb_full_spec sl s lba c : sb_holds s lba c -> zlen c <= sl * B ->
  sb_is_full (sl * B) s = Some (zlen c =? sl * B).
Proof.
  intros (H1 & _) Hc. unfold sb_is_full. rewrite sb_len_eq, H1.
  destruct (Z.leb_spec (zlen c) (sl * B)); [reflexivity|lia].
Qed.

Lemma ZR_mult : exists q, ZERO_REGION_LEN = q * B.
Proof. exists 8. reflexivity. Qed.
Lemma zlen_zr : zlen zero_region = ZERO_REGION_LEN.
Proof. unfold zero_region. apply zlen_repeat. discriminate. Qed.

Lemma padded_mult v q : zlen v = q * B -> padded v = v.
Proof. intros H. unfold padded. rewrite H, lba_pad_of_mult. apply app_nil_r. Qed.

Lemma fill_zeros_spec sl lba : forall k s c, sb_holds s lba c ->
  zlen c + Z.of_nat k * ZERO_REGION_LEN <= sl * B ->
  exists s', sb_fill_zeros (sl * B) k s = Some s' /\
             sb_holds s' lba (c ++ zrepeat 0 (Z.of_nat k * ZERO_REGION_LEN)).
Proof.
  assert (Hz : 0 < ZERO_REGION_LEN) by reflexivity.
  induction k as [|k IH]; intros s c H Hle; cbn [sb_fill_zeros].
  - exists s. split; [reflexivity|]. change (zrepeat 0 (Z.of_nat 0 * ZERO_REGION_LEN)) with (@nil Z).
    rewrite app_nil_r. exact H.
  - assert (Hk : 0 <= Z.of_nat k * ZERO_REGION_LEN) by (apply Z.mul_nonneg_nonneg; lia).
    replace (Z.of_nat (S k) * ZERO_REGION_LEN)
      with (ZERO_REGION_LEN + Z.of_nat k * ZERO_REGION_LEN) in * by lia.
    destruct (sb_fill_spec sl s lba c zero_region H ltac:(lia)) as (s' & v' & E & Hf & _).
    rewrite zlen_zr in *. rewrite E. destruct Hf as [_ Hf]; [lia|].
    destruct ZR_mult as [q Hq]. rewrite (padded_mult zero_region q) in Hf by (rewrite zlen_zr; exact Hq).
    destruct (IH s' _ Hf) as (s2 & E2 & H2).
    + rewrite zlen_app, zlen_zr. lia.
    + exists s2. split; [exact E2|]. rewrite <- app_assoc in H2. unfold zero_region in H2.
      rewrite zrepeat_app in H2 by lia. exact H2.
Qed.

Lemma sb_pad_spec sl s lba c : sb_holds s lba c -> zlen c < sl * B ->
  exists s', sb_pad (sl * B) s = Some (s', sl - zlen c / B) /\
             sb_holds s' lba (c ++ zrepeat 0 (sl * B - zlen c)).
Proof.
  intros H Hlt. pose proof Bpos as HB. assert (Hz : 0 < ZERO_REGION_LEN) by reflexivity.
  pose proof H as (H1 & H2 & H3 & q & H4).
  unfold sb_pad. rewrite sb_len_eq, H1.
  set (p := sl * B - zlen c).
  destruct (div_ceil_pad p ZERO_REGION_LEN Hz ltac:(lia)) as [Hd _].
  set (zb := div_ceil p ZERO_REGION_LEN) in *.
  assert (Hzb : 1 <= zb).
  { destruct (Z.le_gt_cases 1 zb); [assumption|].
    assert (zb * ZERO_REGION_LEN <= 0 * ZERO_REGION_LEN) by (apply Z.mul_le_mono_nonneg_r; lia). lia. }
  destruct (Z.ltb_spec p 0); [lia|]. destruct (Z.ltb_spec zb 1); [lia|]. cbn [orb].
  assert (Hk : Z.of_nat (Z.to_nat (zb - 1)) = zb - 1) by lia.
  destruct (fill_zeros_spec sl lba (Z.to_nat (zb - 1)) s c H) as (s1 & E1 & G1).
  { rewrite Hk. lia. }
  rewrite E1. rewrite Hk in G1.
  assert (Hnn : 0 <= (zb - 1) * ZERO_REGION_LEN) by (apply Z.mul_nonneg_nonneg; lia).
  set (v := ztake (p - (zb - 1) * ZERO_REGION_LEN) zero_region).
  assert (Hv : zlen v = p - (zb - 1) * ZERO_REGION_LEN).
  { unfold v. rewrite zlen_take; [reflexivity|]. rewrite zlen_zr. lia. }
  destruct (sb_fill_spec sl s1 lba _ v G1) as (s2 & v2 & E2 & Hf & _).
  { rewrite zlen_app, zlen_repeat by lia. lia. }
  rewrite E2. rewrite zlen_app, zlen_repeat in Hf by lia.
  destruct Hf as [_ Hf]; [lia|].
  destruct ZR_mult as [qz Hq].
  assert (Hpm : p = (sl - q) * B) by lia.
  rewrite (padded_mult v (sl - q - (zb - 1) * qz)) in Hf by (rewrite Hv, Hq; lia).
  assert (Hfin : (c ++ zrepeat 0 ((zb - 1) * ZERO_REGION_LEN)) ++ v = c ++ zrepeat 0 p).
  { rewrite <- app_assoc. f_equal. unfold v, zero_region. rewrite ztake_repeat by lia.
    rewrite zrepeat_app by lia. f_equal. lia. }
  rewrite Hfin in Hf.
  rewrite sb_len_eq. destruct Hf as (F1 & F2 & F3 & F4). rewrite F1.
  rewrite zlen_app, zlen_repeat by lia.
  replace (zlen c + p =? sl * B) with true by (symmetry; apply Z.eqb_eq; lia).
  assert (Hpp : p mod B = 0) by (rewrite Hpm; apply mult_mod). rewrite Hpp. cbn [andb Z.eqb].
  eexists. split; [|split; [exact F1|split; [exact F2|split; [exact F3|exact F4]]]].
  f_equal. f_equal. rewrite Hpm, mult_div, H4, mult_div. reflexivity.
Qed.

(** Stores *)
Lemma st_write_app d a x y i : st_write (st_write d a x) (a + zlen x) y i = st_write d a (x ++ y) i.
Proof.
  unfold st_write. rewrite zlen_app. pose proof (zlen_nonneg x). pose proof (zlen_nonneg y).
  destruct (Z.leb_spec (a + zlen x) i), (Z.ltb_spec i (a + zlen x + zlen y)); cbn [andb].
  - destruct (Z.leb_spec a i), (Z.ltb_spec i (a + (zlen x + zlen y))); try lia. cbn [andb].
    unfold zlen in *. rewrite app_nth2 by lia. f_equal. lia.
  - destruct (Z.leb_spec a i), (Z.ltb_spec i (a + zlen x)), (Z.ltb_spec i (a + (zlen x + zlen y))); cbn [andb]; try lia; reflexivity.
  - destruct (Z.leb_spec a i), (Z.ltb_spec i (a + zlen x)), (Z.ltb_spec i (a + (zlen x + zlen y))); cbn [andb]; try lia; try reflexivity.
    unfold zlen in *. rewrite app_nth1 by lia. reflexivity.
  - destruct (Z.leb_spec a i), (Z.ltb_spec i (a + zlen x)), (Z.ltb_spec i (a + (zlen x + zlen y))); cbn [andb]; try lia; reflexivity.
Qed.

Lemma st_write_swap d a x y i : st_write (st_write d (a + zlen x) y) a x i = st_write d a (x ++ y) i.
Proof.
  rewrite <- st_write_app. unfold st_write. pose proof (zlen_nonneg x). pose proof (zlen_nonneg y).
  destruct (Z.leb_spec a i), (Z.ltb_spec i (a + zlen x)), (Z.leb_spec (a + zlen x) i); cbn [andb]; try lia; reflexivity.
Qed.

Lemma st_write_nil d a i : st_write d a [] i = d i.
Proof. unfold st_write. change (zlen []) with 0. destruct (Z.leb_spec a i), (Z.ltb_spec i (a + 0)); cbn [andb]; try lia; reflexivity. Qed.

Lemma st_write_ext d1 d2 a x : (forall i, d1 i = d2 i) -> forall i, st_write d1 a x i = st_write d2 a x i.
Proof. intros H i. unfold st_write. now rewrite H. Qed.

Lemma sbs_get_set l z s z' : sbs_get l z <> None ->
  sbs_get (sbs_set l z s) z' = if z' =? z then Some s else sbs_get l z'.
Proof.
  induction l as [|[k v] l IH]; intros H; cbn [sbs_get sbs_set] in *; [congruence|].
  destruct (Z.eqb_spec z k).
  - subst k. cbn [sbs_get]. destruct (Z.eqb_spec z' z); reflexivity.
  - cbn [sbs_get]. destruct (Z.eqb_spec z' k).
    + subst z'. destruct (Z.eqb_spec k z); [congruence|reflexivity].
    + apply IH. exact H.
Qed.

Lemma ztake_app_le {A} i (x y : list A) : 0 <= i <= zlen x -> ztake i (x ++ y) = ztake i x.
Proof. intros H. rewrite ztake_app by lia. rewrite (ztake_0 (i - zlen x)) by lia. apply app_nil_r. Qed.
Lemma zdrop_app_le {A} i (x y : list A) : 0 <= i <= zlen x -> zdrop i (x ++ y) = zdrop i x ++ y.
Proof. intros H. rewrite zdrop_app by lia. now rewrite (zdrop_0 (i - zlen x)) by lia. Qed.
Lemma ztake_app_ge {A} i (x y : list A) : zlen x <= i -> ztake i (x ++ y) = x ++ ztake (i - zlen x) y.
Proof. intros H. pose proof (zlen_nonneg x). rewrite ztake_app by lia. now rewrite (ztake_all i x). Qed.
Lemma zdrop_app_ge {A} i (x y : list A) : zlen x <= i -> zdrop i (x ++ y) = zdrop (i - zlen x) y.
Proof. intros H. pose proof (zlen_nonneg x). rewrite zdrop_app by lia. now rewrite (zdrop_all i x). Qed.

(** A write of whole stripes, aligned to a stripe. *)
Definition whole (sl : Z) (w : Z * list Z) : Prop :=
  0 <= fst w /\ fst w mod sl = 0 /\ zlen (snd w) mod (sl * B) = 0.

Lemma whole_intro sl lba0 k j bs : 0 < sl -> 0 <= lba0 -> 0 <= k -> lba0 mod sl = 0 -> zlen bs = j * (sl * B) ->
  whole sl (lba0 + k * sl, bs).
Proof.
  intros H0 HL HK H1 H2. pose proof Bpos. split; [|split]; cbn [fst snd].
  - nia.
  - rewrite Z.mod_add by lia. exact H1.
  - rewrite H2. apply Z.mod_mul. assert (0 < sl * B) by (apply Z.mul_pos_pos; lia). lia.
Qed.

Lemma whole_intro' sl lba0 l bs : 0 < sl -> 0 <= lba0 -> lba0 mod sl = 0 ->
  (exists k j, 0 <= k /\ l = lba0 + k * sl /\ zlen bs = j * (sl * B)) -> whole sl (l, bs).
Proof. intros H0 HL H1 (k & j & HK & -> & H2). eapply whole_intro; eauto. Qed.

Ltac wh lba0 ns :=
  let HW := fresh "HW" in
  intros HW; unfold wr;
  repeat (apply Forall_cons;
    [ apply (whole_intro' _ lba0); [assumption|assumption|assumption|];
      match goal with S := _ : Z |- _ => unfold S in * | _ => idtac end;
      first [ exists 0, 1; repeat split; lia | exists 0, ns; repeat split; lia | exists 1, ns; repeat split; lia
            | exists ns, 1; repeat split; lia | exists (1 + ns), 1; repeat split; lia ] | ]);
  exact HW.

(** The effect of one append: all whole stripes of (buffered ++ padded data) go to the
    store, the rest stays buffered. *)
Lemma write_core g sl r zone sb lba0 c buf :
  0 < sl -> 0 <= lba0 -> lba0 mod sl = 0 -> sbs_get (rd_sbs r) zone = Some sb -> sb_holds sb lba0 c -> zlen c < sl * B ->
  0 < zlen buf ->
  let total := c ++ padded buf in
  let full := zlen total / (sl * B) * (sl * B) in
  exists sb' d', write_at sl r buf zone (lba0 + zlen c / B) = Some (RD (sbs_set (rd_sbs r) zone sb') d') /\
    sb_holds sb' (lba0 + full / B) (zdrop full total) /\
    (forall i, st_get g d' i = st_get g (wr (rd_store r) lba0 (ztake full total)) i) /\
    (Forall (whole sl) (rd_store r) -> Forall (whole sl) d').
Proof.
  intros Hsl Hl0 Hal Hget Hh Hc Hbuf total full. pose proof Bpos as HB.
  set (S := sl * B) in *. assert (HS : 0 < S) by (apply Z.mul_pos_pos; lia).
  pose proof Hh as (_ & _ & _ & q & Hq). pose proof (zlen_nonneg c) as Hcn.
  assert (Hq0 : 0 <= q).
  { destruct (Z.le_gt_cases 0 q); [assumption|]. assert (q * B <= (-1) * B) by (apply Z.mul_le_mono_nonneg_r; lia). lia. }
  pose proof (lba_pad_bound (zlen buf)) as Hpb.
  destruct (lba_pad_mult (zlen buf)) as [qb Hqb].
  assert (Htl : zlen total = (q + qb) * B) by (unfold total; rewrite zlen_app, zlen_padded; lia).
  assert (Htn : zlen total = zlen c + zlen buf + lba_pad (zlen buf))
    by (unfold total; rewrite zlen_app, zlen_padded; lia).
  unfold write_at. rewrite Hget, (sb_holds_next _ _ _ Hh), Z.eqb_refl. cbn [negb].
  change (sl * B) with S.
  assert (Hfull : full = sl * (zlen total / S) * B).
  { unfold full. fold S. unfold S at 2. lia. }
  (* total < S: everything stays buffered *)
  destruct (Z.lt_ge_cases (zlen total) S) as [Hlt|Hge].
  { assert (E : (negb (sb_is_empty sb) || (zlen buf <? S)) = true).
    { destruct (Z.ltb_spec (zlen buf) S); [apply orb_true_r|]. lia. }
    rewrite E.
    destruct (sb_fill_spec sl sb lba0 c buf Hh ltac:(fold S; lia)) as (sb1 & v1 & E1 & Hf & _).
    fold S in E1, Hf. rewrite E1. destruct Hf as [-> Hf]; [lia|]. fold total in Hf.
    pose proof (sb_full_spec sl sb1 lba0 total Hf ltac:(fold S; lia)) as Efull.
    fold S in Efull. rewrite Efull. destruct (Z.eqb_spec (zlen total) S); [lia|].
    change (zlen [] =? 0) with true. cbv iota.
    eexists _, _. split; [reflexivity|].
    assert (Ef0 : full = 0) by (unfold full; rewrite Z.div_small; lia).
    rewrite Ef0. rewrite Z.div_0_l by lia. rewrite Z.add_0_r, zdrop_0 by lia. split; [exact Hf|].
    split; [|intros HW; exact HW].
    intros i. rewrite ztake_0 by lia. unfold wr; cbn [st_get]. now rewrite st_write_nil. }
  (* otherwise lba0 + ... *)
  destruct (negb (sb_is_empty sb) || (zlen buf <? S)) eqn:E.
  - destruct (sb_fill_spec sl sb lba0 c buf Hh ltac:(fold S; lia)) as (sb1 & v1 & E1 & HfA & HfB).
    fold S in E1, HfA, HfB. rewrite E1.
    destruct (Z.le_gt_cases (zlen buf) (S - zlen c)) as [Hle|Hgt].
    + (* exactly one stripe completed, nothing left *)
      destruct (HfA Hle) as [-> Hf]. fold total in Hf.
      assert (Et : zlen total = S).
      { assert (Hx : exists z, S - zlen c = z * B) by (exists (sl - q); unfold S; lia).
        destruct Hx as [z Hz].
        assert (zlen buf + lba_pad (zlen buf) <= S - zlen c); [|lia].
        rewrite Hqb, Hz. apply Z.mul_le_mono_nonneg_r; [lia|].
        assert (qb * B < (z + 1) * B) by lia.
        apply Z.mul_lt_mono_pos_r in H; lia. }
      pose proof (sb_full_spec sl sb1 lba0 total Hf ltac:(fold S; lia)) as Efull.
      fold S in Efull. rewrite Efull, Et, Z.eqb_refl.
      destruct (sb_holds_pop _ _ _ Hf) as (sgl & sb2 & Ep & Ec & H2). rewrite Ep.
      change (zlen [] =? 0) with true. cbv iota.
      eexists _, _. split; [reflexivity|].
      assert (Ef : full = S) by (unfold full; fold S; rewrite Et, Z.div_same; lia).
      rewrite Ef. rewrite (zdrop_all S total) by lia. split.
      * rewrite <- Et. exact H2.
      * assert (Esb : sb_lba sb1 = lba0) by apply Hf.
        assert (Ecl : zlen (concat sgl) = S) by (rewrite Ec; exact Et).
        split; [|wh lba0 1].
        intros i. rewrite ztake_all by lia. rewrite Ec.
        destruct Hf as (_ & _ & -> & _). reflexivity.
    + destruct (HfB Hgt) as [-> Hf].
      set (hd := ztake (S - zlen c) buf) in *. set (tl := zdrop (S - zlen c) buf) in *.
      assert (Hhd : zlen hd = S - zlen c) by (unfold hd; rewrite zlen_take; lia).
      assert (Htlen : zlen tl = zlen buf - (S - zlen c)) by (unfold tl; rewrite zlen_drop; lia).
      assert (Hbt : buf = hd ++ tl) by (symmetry; apply ztake_drop).
      pose proof (sb_full_spec sl sb1 lba0 _ Hf) as Efull. fold S in Efull.
      rewrite zlen_app, Hhd in Efull. rewrite Efull by lia.
      replace (zlen c + (S - zlen c) =? S) with true by (symmetry; apply Z.eqb_eq; lia).
      destruct (sb_holds_pop _ _ _ Hf) as (sgl & sb2 & Ep & Ec & H2). rewrite Ep.
      destruct (Z.eqb_spec (zlen tl) 0); [lia|].
      assert (E2 : sb_is_empty sb2 = true) by (eapply sb_holds_empty; [exact H2|reflexivity]).
      rewrite E2. cbn [negb]. rewrite zlen_app, Hhd in H2.
      (* name the pieces *)
      set (lba1 := lba0 + zlen c / B + (zlen buf - zlen tl) / B).
      assert (Elba : lba1 = lba0 + sl).
      { unfold lba1. replace (zlen buf - zlen tl) with ((sl - q) * B) by (unfold S in Htlen; lia).
        rewrite Hq, !mult_div. lia. }
      set (ns := zlen tl / S).
      assert (Hns : 0 <= ns /\ ns * S <= zlen tl < ns * S + S).
      { pose proof (Z.div_mod (zlen tl) S ltac:(lia)). pose proof (Z.mod_pos_bound (zlen tl) S HS).
        unfold ns. split; [apply Z.div_pos; lia|lia]. }
      destruct Hns as [Hns0 Hns]. assert (HnsS : 0 <= ns * S) by (apply Z.mul_nonneg_nonneg; lia).
      set (w := ztake (ns * S) tl). set (t2 := zdrop (ns * S) tl).
      assert (Hw : zlen w = ns * S) by (unfold w; rewrite zlen_take; lia).
      assert (Ht2 : zlen t2 = zlen tl - ns * S) by (unfold t2; rewrite zlen_drop; lia).
      assert (Htw : tl = w ++ t2) by (symmetry; apply ztake_drop).
      unfold sb_reset. rewrite E2.
      set (sb4 := SB (sb_buf sb2) (lba1 + ns * sl)).
      assert (H4 : sb_holds sb4 (lba1 + ns * sl) []).
      { destruct H2 as (X1 & X2 & _ & X4). split; [exact X1|]. split; [exact X2|]. split; [reflexivity|exact X4]. }
      assert (Etot : total = (c ++ hd) ++ w ++ padded t2).
      { unfold total, padded. rewrite Hbt at 1. rewrite Htw at 1. rewrite <- !app_assoc. do 4 f_equal.
        f_equal. unfold lba_pad. replace (zlen t2) with (zlen buf + (q - sl - ns * sl) * B) by (unfold S in *; lia).
        rewrite Z.opp_add_distr, <- Z.mul_opp_l, Z.mod_add by lia. reflexivity. }
      assert (Estripes : zlen (c ++ hd) = S) by (rewrite zlen_app; lia).
      assert (Ed1 : sb_lba sb1 = lba0) by apply Hf.
      destruct (Z.eqb_spec (zlen t2) 0) as [E0|E0].
      * eexists _, _. split; [reflexivity|].
        apply zlen_0_nil in E0.
        assert (Etot' : total = (c ++ hd) ++ w).
        { rewrite Etot, E0. change (padded []) with (@nil Z). now rewrite app_nil_r. }
        assert (Ef : full = zlen total).
        { unfold full. fold S. rewrite Etot', zlen_app, Estripes, Hw.
          replace (S + ns * S) with ((1 + ns) * S) by lia. rewrite Z.div_mul by lia. reflexivity. }
        assert (Ef2 : full = (sl + ns * sl) * B).
        { rewrite Ef, Etot', zlen_app, Estripes, Hw. unfold S. lia. }
        split.
        -- rewrite (zdrop_all full) by lia. rewrite Ef2, mult_div, Z.add_assoc, <- Elba. exact H4.
        -- assert (Ecl : zlen (concat sgl) = S) by (rewrite Ec; exact Estripes).
           split; [|wh lba0 ns].
           intros i. rewrite ztake_all by lia. rewrite Ec, Ed1. unfold wr; cbn [st_get]. rewrite Etot'.
           rewrite <- st_write_app. rewrite Estripes, Elba. f_equal. unfold S. lia.
      * destruct (sb_fill_spec sl sb4 _ [] t2 H4 ltac:(change (zlen []) with 0; lia)) as (sb5 & v5 & E5 & Hf5 & _).
        fold S in E5, Hf5. rewrite E5. change (zlen []) with 0 in Hf5.
        destruct Hf5 as [-> Hf5]; [lia|]. cbn [app] in Hf5.
        assert (Hpl : zlen (padded t2) <= S).
        { rewrite zlen_padded. destruct (lba_pad_mult (zlen t2)) as [q2 Hq2]. pose proof (lba_pad_bound (zlen t2)).
          rewrite Hq2. unfold S. apply Z.mul_le_mono_nonneg_r; [lia|].
          assert (Hx : q2 * B < (sl + 1) * B) by (unfold S in *; lia). apply Z.mul_lt_mono_pos_r in Hx; lia. }
        pose proof (sb_full_spec sl sb5 _ _ Hf5 Hpl) as Ef5. fold S in Ef5. rewrite Ef5.
        destruct (Z.eqb_spec (zlen (padded t2)) S) as [Efl|Efl].
        -- destruct (sb_holds_pop _ _ _ Hf5) as (sgl6 & sb6 & Ep6 & Ec6 & H6). rewrite Ep6.
           pose proof (sb_full_spec sl sb6 _ _ H6 ltac:(change (zlen []) with 0; lia)) as Ef6.
           fold S in Ef6. rewrite Ef6. change (zlen []) with 0. replace (0 =? S) with false by lia. cbn [Z.eqb].
           eexists _, _. split; [reflexivity|].
           assert (Ef : full = zlen total).
           { unfold full. fold S. rewrite Etot, !zlen_app, Efl, Hw. rewrite zlen_app in Estripes. rewrite Estripes.
             replace (S + (ns * S + S)) with ((1 + ns + 1) * S) by lia. rewrite Z.div_mul by lia. reflexivity. }
           assert (Ef2 : full = (sl + ns * sl + sl) * B).
           { rewrite Ef, Etot, !zlen_app, Efl, Hw. rewrite zlen_app in Estripes. rewrite Estripes. unfold S. lia. }
           split.
           ++ rewrite (zdrop_all full) by lia. rewrite Ef2, mult_div.
              replace (lba0 + (sl + ns * sl + sl)) with (lba1 + ns * sl + zlen (padded t2) / B); [exact H6|].
              rewrite Efl. unfold S. rewrite mult_div. lia.
           ++ assert (Ecl : zlen (concat sgl) = S) by (rewrite Ec; exact Estripes).
              assert (Ecl6 : zlen (concat sgl6) = S) by (rewrite Ec6; exact Efl).
              assert (Esb5 : sb_lba sb5 = lba1 + ns * sl) by apply Hf5.
              split; [|wh lba0 ns].
              intros i. rewrite ztake_all by lia. rewrite Ec, Ed1, Ec6. unfold wr; cbn [st_get]. rewrite Etot.
              destruct Hf5 as (_ & _ & -> & _).
              rewrite <- st_write_app.
              replace ((lba1 + ns * sl) * B) with (lba1 * B + zlen w) by (rewrite Hw; unfold S; lia).
              rewrite st_write_swap. rewrite Estripes, Elba.
              replace ((lba0 + sl) * B) with (lba0 * B + S) by (unfold S; lia). reflexivity.
        -- pose proof (sb_full_spec sl sb5 _ _ Hf5 Hpl) as Ef6. fold S in Ef6. rewrite Ef6.
           destruct (Z.eqb_spec (zlen (padded t2)) S); [congruence|].
           change (zlen [] =? 0) with true. cbv iota.
           eexists _, _. split; [reflexivity|].
           assert (Ef : full = (1 + ns) * S).
           { unfold full. fold S. rewrite Etot, !zlen_app, Hw. rewrite zlen_app in Estripes. rewrite Estripes.
             replace (S + (ns * S + zlen (padded t2))) with (zlen (padded t2) + (1 + ns) * S) by lia.
             pose proof (zlen_nonneg (padded t2)).
             rewrite Z.div_add by lia. rewrite (Z.div_small (zlen (padded t2))) by lia. lia. }
           assert (Ef2 : full = (sl + ns * sl) * B) by (rewrite Ef; unfold S; lia).
           assert (Esp : total = ((c ++ hd) ++ w) ++ padded t2) by (rewrite Etot, app_assoc; reflexivity).
           assert (Ell : zlen ((c ++ hd) ++ w) = full) by (rewrite zlen_app, Estripes, Hw, Ef; lia).
           rewrite Esp. rewrite (zdrop_app_ge full) by lia. rewrite (ztake_app_le full) by lia.
           rewrite Ell, Z.sub_diag, zdrop_0 by lia. rewrite (ztake_all full) by lia.
           split.
           ++ rewrite Ef2, mult_div, Z.add_assoc, <- Elba. exact Hf5.
           ++ assert (Ecl : zlen (concat sgl) = S) by (rewrite Ec; exact Estripes).
              split; [|wh lba0 ns].
              intros i. rewrite Ec, Ed1. unfold wr; cbn [st_get]. rewrite <- st_write_app.
              rewrite Estripes, Elba. f_equal. unfold S. lia.
  - (* buffer empty and at least one stripe of data *)
    apply orb_false_iff in E. destruct E as [Ee Ebl]. apply negb_false_iff in Ee.
    assert (Hcn0 : c = []) by (eapply sb_holds_empty; eauto). subst c.
    change (zlen []) with 0 in *. rewrite Z.div_0_l, Z.add_0_r by lia.
    destruct (Z.eqb_spec (zlen buf) 0); [lia|]. rewrite Ee. cbn [negb].
    set (ns := zlen buf / S).
    assert (Hns : 0 <= ns /\ ns * S <= zlen buf < ns * S + S).
    { pose proof (Z.div_mod (zlen buf) S ltac:(lia)). pose proof (Z.mod_pos_bound (zlen buf) S HS).
      unfold ns. split; [apply Z.div_pos; lia|lia]. }
    destruct Hns as [Hns0 Hns]. assert (HnsS : 0 <= ns * S) by (apply Z.mul_nonneg_nonneg; lia).
    set (w := ztake (ns * S) buf). set (t2 := zdrop (ns * S) buf).
    assert (Hw : zlen w = ns * S) by (unfold w; rewrite zlen_take; lia).
    assert (Ht2 : zlen t2 = zlen buf - ns * S) by (unfold t2; rewrite zlen_drop; lia).
    assert (Htw : buf = w ++ t2) by (symmetry; apply ztake_drop).
    unfold sb_reset. rewrite Ee.
    set (sb4 := SB (sb_buf sb) (lba0 + ns * sl)).
    assert (H4 : sb_holds sb4 (lba0 + ns * sl) []).
    { destruct Hh as (X1 & X2 & _ & X4). split; [exact X1|]. split; [exact X2|]. split; [reflexivity|exact X4]. }
    assert (Etot : total = w ++ padded t2).
    { unfold total, padded. cbn [app]. rewrite Htw at 1. rewrite <- !app_assoc. do 2 f_equal.
      f_equal. unfold lba_pad. replace (zlen t2) with (zlen buf + (- ns * sl) * B) by (unfold S in *; lia).
      rewrite Z.opp_add_distr, <- Z.mul_opp_l, Z.mod_add by lia. reflexivity. }
    destruct (Z.eqb_spec (zlen t2) 0) as [E0|E0].
    + eexists _, _. split; [reflexivity|].
      apply zlen_0_nil in E0.
      assert (Etot' : total = w).
      { rewrite Etot, E0. change (padded []) with (@nil Z). now rewrite app_nil_r. }
      assert (Ef : full = ns * S) by (unfold full; fold S; rewrite Etot', Hw, Z.div_mul; lia).
      assert (Ef2 : full = (ns * sl) * B) by (rewrite Ef; unfold S; lia).
      split.
      * rewrite (zdrop_all full) by (rewrite Etot'; lia). rewrite Ef2, mult_div. exact H4.
      * split; [|wh lba0 ns].
        intros i. rewrite ztake_all by (rewrite Etot'; lia). unfold wr; cbn [st_get]. rewrite Etot'. reflexivity.
    + destruct (sb_fill_spec sl sb4 _ [] t2 H4 ltac:(change (zlen []) with 0; lia)) as (sb5 & v5 & E5 & Hf5 & _).
      fold S in E5, Hf5. rewrite E5. change (zlen []) with 0 in Hf5.
      destruct Hf5 as [-> Hf5]; [lia|]. cbn [app] in Hf5.
      assert (Hpl : zlen (padded t2) <= S).
      { rewrite zlen_padded. destruct (lba_pad_mult (zlen t2)) as [q2 Hq2]. pose proof (lba_pad_bound (zlen t2)).
        rewrite Hq2. unfold S. apply Z.mul_le_mono_nonneg_r; [lia|].
        assert (Hx : q2 * B < (sl + 1) * B) by (unfold S in *; lia). apply Z.mul_lt_mono_pos_r in Hx; lia. }
      pose proof (sb_full_spec sl sb5 _ _ Hf5 Hpl) as Ef5. fold S in Ef5. rewrite Ef5.
      destruct (Z.eqb_spec (zlen (padded t2)) S) as [Efl|Efl].
      * destruct (sb_holds_pop _ _ _ Hf5) as (sgl6 & sb6 & Ep6 & Ec6 & H6). rewrite Ep6.
        pose proof (sb_full_spec sl sb6 _ _ H6 ltac:(change (zlen []) with 0; lia)) as Ef6.
        fold S in Ef6. rewrite Ef6. change (zlen []) with 0. replace (0 =? S) with false by lia. cbn [Z.eqb].
        eexists _, _. split; [reflexivity|].
        assert (Ef : full = (ns + 1) * S).
        { unfold full. fold S. rewrite Etot, zlen_app, Efl, Hw.
          replace (ns * S + S) with ((ns + 1) * S) by lia. rewrite Z.div_mul by lia. reflexivity. }
        assert (Ef2 : full = (ns * sl + sl) * B) by (rewrite Ef; unfold S; lia).
        assert (Ell : zlen total = full) by (rewrite Etot, zlen_app, Efl, Hw, Ef; lia).
        split.
        -- rewrite (zdrop_all full) by lia. rewrite Ef2, mult_div.
           replace (lba0 + (ns * sl + sl)) with (lba0 + ns * sl + zlen (padded t2) / B); [exact H6|].
           rewrite Efl. unfold S. rewrite mult_div. lia.
        -- assert (Ecl6 : zlen (concat sgl6) = S) by (rewrite Ec6; exact Efl).
           assert (Esb5 : sb_lba sb5 = lba0 + ns * sl) by apply Hf5.
           split; [|wh lba0 ns].
           intros i. rewrite ztake_all by lia. rewrite Ec6. unfold wr; cbn [st_get]. rewrite Etot.
           destruct Hf5 as (_ & _ & -> & _).
           replace ((lba0 + ns * sl) * B) with (lba0 * B + zlen w) by (rewrite Hw; unfold S; lia).
           apply st_write_swap.
      * pose proof (sb_full_spec sl sb5 _ _ Hf5 Hpl) as Ef6. fold S in Ef6. rewrite Ef6.
        destruct (Z.eqb_spec (zlen (padded t2)) S); [congruence|].
        change (zlen [] =? 0) with true. cbv iota.
        eexists _, _. split; [reflexivity|].
        assert (Ef : full = ns * S).
        { unfold full. fold S. rewrite Etot, !zlen_app, Hw. pose proof (zlen_nonneg (padded t2)).
          rewrite Z.add_comm, Z.div_add by lia. rewrite (Z.div_small (zlen (padded t2))) by lia. lia. }
        assert (Ef2 : full = (ns * sl) * B) by (rewrite Ef; unfold S; lia).
        rewrite Etot. rewrite (zdrop_app_ge full) by lia. rewrite (ztake_app_le full) by lia.
        rewrite Hw, Ef, Z.sub_diag, zdrop_0 by lia. rewrite (ztake_all (ns * S)) by lia.
        split.
        -- rewrite <- Ef, Ef2, mult_div. exact Hf5.
        -- split; [|wh lba0 ns].
           intros i. reflexivity.
Qed.

Lemma flush_core g sl r zone sb lba0 c :
  0 < sl -> 0 <= lba0 -> lba0 mod sl = 0 -> sbs_get (rd_sbs r) zone = Some sb -> sb_holds sb lba0 c -> 0 < zlen c < sl * B ->
  exists sb' d', flush_zone sl r zone = Some (sl - zlen c / B, RD (sbs_set (rd_sbs r) zone sb') d') /\
    sb_holds sb' (lba0 + sl) [] /\
    (forall i, st_get g d' i = st_get g (wr (rd_store r) lba0 (c ++ zrepeat 0 (sl * B - zlen c))) i) /\
    (Forall (whole sl) (rd_store r) -> Forall (whole sl) d').
Proof.
  intros Hsl Hl0 Hal Hget Hh Hc. unfold flush_zone. rewrite Hget.
  assert (E : sb_is_empty sb = false).
  { destruct (sb_is_empty sb) eqn:E; [|reflexivity]. eapply sb_holds_empty in E; eauto. subst c.
    change (zlen []) with 0 in Hc. lia. }
  rewrite E. destruct (sb_pad_spec sl sb lba0 c Hh ltac:(lia)) as (s1 & E1 & H1). rewrite E1.
  destruct (sb_holds_pop _ _ _ H1) as (sgl & s2 & E2 & Ec & H2). rewrite E2.
  eexists _, _. split; [reflexivity|]. rewrite zlen_app, zlen_repeat in H2 by lia.
  replace (zlen c + (sl * B - zlen c)) with (sl * B) in H2 by lia. rewrite mult_div in H2.
  split; [exact H2|].
  assert (Esb : sb_lba s1 = lba0) by apply H1.
  assert (Ecl : zlen (concat sgl) = sl * B) by (rewrite Ec, zlen_app, zlen_repeat; lia).
  split; [|wh lba0 1].
  intros i. rewrite Ec. destruct H1 as (_ & _ & -> & _). reflexivity.
Qed.
