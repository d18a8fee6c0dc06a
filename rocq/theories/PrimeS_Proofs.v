(** Proofs about the PRIME-S layout model. *)
From Coq Require Import Znumtheory.
From Verif Require Import Common PrimeS_Model.

(** * Modular arithmetic *)

Definition cong (n x y : Z) : Prop := (n | x - y).

Lemma cong_refl n x : cong n x x.
Proof. exists 0. lia. Qed.
Lemma cong_sym n x y : cong n x y -> cong n y x.
Proof. intros [q H]. exists (- q). lia. Qed.
Lemma cong_trans n x y z : cong n x y -> cong n y z -> cong n x z.
Proof. intros [q H] [q' H']. exists (q + q'). lia. Qed.
Lemma cong_add n x y x' y' : cong n x y -> cong n x' y' -> cong n (x + x') (y + y').
Proof. intros [q H] [q' H']. exists (q + q'). lia. Qed.
Lemma cong_sub n x y x' y' : cong n x y -> cong n x' y' -> cong n (x - x') (y - y').
Proof. intros [q H] [q' H']. exists (q - q'). lia. Qed.
Lemma cong_mul n x y x' y' : cong n x y -> cong n x' y' -> cong n (x * x') (y * y').
Proof.
  intros [q H] [q' H']. exists (q * x' + y * q').
  replace (x * x' - y * y') with ((x - y) * x' + y * (x' - y')) by ring.
  rewrite H, H'. ring.
Qed.
Lemma cong_mod n x : 0 < n -> cong n (x mod n) x.
Proof. intros H. exists (- (x / n)). pose proof (Z.div_mod x n). lia. Qed.
Lemma cong_small n x y : cong n x y -> 0 <= x < n -> 0 <= y < n -> x = y.
Proof. intros [q H] Hx Hy. assert (q = 0) by nia. subst q. lia. Qed.
Lemma cong_small_sub n x y : cong n x y -> - n < x - y < n -> x = y.
Proof. intros [q H] Hx. assert (q = 0) by nia. subst q. lia. Qed.
Lemma cong_mod_eq n x y : 0 < n -> cong n x y -> x mod n = y mod n.
Proof.
  intros Hn H. apply (cong_small n); try (apply Z.mod_pos_bound; lia).
  eapply cong_trans; [apply cong_mod; lia|]. eapply cong_trans; [exact H|].
  apply cong_sym, cong_mod. lia.
Qed.
Lemma cong_multiple n x q : cong n (x + n * q) x.
Proof. exists q. lia. Qed.

(** * [invmod] *)

Lemma invmod_loop_spec n a : 0 < n ->
  forall fuel t r newt newr t' r',
  (0 <= newr < r) -> t * newt <= 0 -> r * Z.abs newt + newr * Z.abs t = n -> Z.abs t < n ->
  cong n (t * a) r -> cong n (newt * a) newr ->
  invmod_loop fuel t r newt newr = Some (t', r') ->
  cong n (t' * a) r' /\ Z.abs t' < n.
Proof.
  intros Hn. induction fuel as [|fu IH]; intros t r newt newr t' r' Hr Ht Hsum Hb Hc1 Hc2 H;
    cbn [invmod_loop] in H; rewrite Z.gtb_ltb in H; destruct (Z.ltb_spec 0 newr).
  - discriminate.
  - injection H as <- <-. auto.
  - set (q := r / newr) in *.
    assert (Hq : r = newr * q + r mod newr) by (apply Z.div_mod; lia).
    assert (Hm : 0 <= r mod newr < newr) by (apply Z.mod_pos_bound; lia).
    assert (Hq1 : 1 <= q) by nia.
    assert (Habs : Z.abs (t - newt * q) = Z.abs t + q * Z.abs newt).
    { destruct (Z.abs_spec t) as [[]|[]], (Z.abs_spec newt) as [[]|[]],
        (Z.abs_spec (t - newt * q)) as [[]|[]]; nia. }
    eapply IH in H; [exact H| | | | | | ].
    + lia.
    + destruct (Z.eq_dec newt 0); [subst; lia|]. nia.
    + rewrite Habs. rewrite <- Hsum. ring.
    + assert (0 <= newr * Z.abs t) by nia. nia.
    + exact Hc2.
    + replace ((t - newt * q) * a) with (t * a - newt * a * q) by ring.
      apply cong_sub; [exact Hc1|]. apply cong_mul; [exact Hc2|apply cong_refl].
  - injection H as <- <-. auto.
Qed.

Lemma invmod_loop_gcd : forall fuel t r newt newr,
  0 <= newr < r -> (Z.to_nat newr <= fuel)%nat ->
  exists t', invmod_loop fuel t r newt newr = Some (t', Z.gcd r newr).
Proof.
  induction fuel as [|fu IH]; intros t r newt newr Hr Hf;
    cbn [invmod_loop]; rewrite Z.gtb_ltb; destruct (Z.ltb_spec 0 newr).
  - lia.
  - exists t. replace newr with 0 by lia. rewrite Z.gcd_0_r, Z.abs_eq by lia. reflexivity.
  - assert (Hm : 0 <= r mod newr < newr) by (apply Z.mod_pos_bound; lia).
    replace (r - newr * (r / newr)) with (r mod newr) by (rewrite (Z.mod_eq r newr); lia).
    destruct (IH newt newr (t - newt * (r / newr)) (r mod newr)) as [t' Ht']; [lia|lia|].
    exists t'. rewrite Ht'. do 2 f_equal.
    rewrite Z.gcd_comm, Z.gcd_mod by lia. apply Z.gcd_comm.
  - exists t. replace newr with 0 by lia. rewrite Z.gcd_0_r, Z.abs_eq by lia. reflexivity.
Qed.

(** [invmod] terminates without tripping its assertion, and returns the inverse
    in [0, n). *)
Lemma invmod_total n a : prime n -> 0 < a < n ->
  exists t, invmod_opt a n = Some t /\ 0 <= t < n /\ cong n (a * t) 1.
Proof.
  intros Hp Ha. assert (Hn : 1 < n) by (apply prime_ge_2 in Hp; lia).
  unfold invmod_opt.
  destruct (invmod_loop_gcd (S (Z.to_nat a)) 0 n 1 a) as [t' Ht']; [lia|lia|].
  assert (Hg : Z.gcd n a = 1).
  { apply Zgcd_1_rel_prime, rel_prime_sym, rel_prime_le_prime; [exact Hp|lia]. }
  rewrite Ht'. rewrite Hg in *. cbn [Z.eqb Pos.eqb].
  eapply (invmod_loop_spec n a) in Ht'; [|lia|lia|lia| |lia| |].
  - destruct Ht' as [Hc Hb]. eexists; split; [reflexivity|].
    destruct (Z.ltb_spec t' 0); split; try lia.
    + replace (a * (t' + n)) with (t' * a + n * a) by ring.
      eapply cong_trans; [apply cong_multiple|exact Hc].
    + replace (a * t') with (t' * a) by ring. exact Hc.
  - cbn. lia.
  - exists (-1). lia.
  - replace (1 * a) with a by ring. apply cong_refl.
Qed.

Lemma invmod_spec n a : prime n -> 0 < a < n -> cong n (a * invmod a n) 1 /\ 0 <= invmod a n < n.
Proof.
  intros Hp Ha. unfold invmod. destruct (invmod_total n a Hp Ha) as (t & -> & Hr & Hc). auto.
Qed.

(** * Counting and selecting within ranges *)

Lemma nth_filter_zseq (p : Z -> bool) : forall len a t,
  a <= t < a + Z.of_nat len -> p t = true ->
  nth_error (filter p (zseq a len)) (Z.to_nat (count p (zrange a t))) = Some t.
Proof.
  induction len as [|l IH]; intros a t Ht Hp; [lia|].
  cbn [zseq filter]. destruct (Z.eq_dec t a) as [->|Hne].
  - rewrite Hp. rewrite zrange_empty by lia. reflexivity.
  - rewrite (zrange_cons a t) by lia. rewrite count_cons.
    pose proof (count_nonneg p (zrange (a + 1) t)) as Hc.
    destruct (p a).
    + replace (Z.to_nat (1 + count p (zrange (a + 1) t)))
        with (S (Z.to_nat (count p (zrange (a + 1) t)))) by lia.
      cbn [nth_error]. apply IH; [lia|exact Hp].
    + apply IH; [lia|exact Hp].
Qed.

Lemma nth_filter_zrange (p : Z -> bool) n t :
  0 <= t < n -> p t = true ->
  nth_error (filter p (zrange 0 n)) (Z.to_nat (count p (zrange 0 t))) = Some t.
Proof. intros Ht Hp. apply nth_filter_zseq; [lia|exact Hp]. Qed.

Lemma NoDup_nth_error_inj {A} (l : list A) i j x :
  NoDup l -> nth_error l i = Some x -> nth_error l j = Some x -> i = j.
Proof.
  intros Hnd Hi Hj. rewrite NoDup_nth_error in Hnd. apply Hnd.
  - apply nth_error_Some. congruence.
  - congruence.
Qed.

(** * Geometry *)

Record valid_layout (L : layout) : Prop := VL {
  vl_prime : prime (ln L);
  vl_k : 1 < lk L <= ln L;
  vl_f : 0 < lf L < lk L }.

Section Layout.
Variable L : layout.
Hypothesis HV : valid_layout L.

Notation n := (ln L).
Notation k := (lk L).
Notation f := (lf L).
Notation m := (gm L).
Notation minv := (gm_inv L).

Lemma n_pos : 1 < n.
Proof. pose proof (prime_ge_2 _ (vl_prime L HV)); lia. Qed.
Lemma m_bound : 0 < m < n.
Proof. unfold gm. destruct HV. lia. Qed.
Lemma m_eq : m = k - f.
Proof. reflexivity. Qed.
Lemma minv_spec : cong n (m * minv) 1 /\ 0 <= minv < n.
Proof. apply invmod_spec; [apply HV|apply m_bound]. Qed.
Lemma yinv_spec y : 0 < y < n -> cong n (y * invmod y n) 1 /\ 0 <= invmod y n < n.
Proof. apply invmod_spec, HV. Qed.

(** A chunk as (repetition, iteration, stripe within iteration, position). *)
Record coord := Co { co_r : Z; co_z : Z; co_t : Z; co_b : Z }.
Definition valid_coord (c : coord) : Prop :=
  0 <= co_r c /\ 0 <= co_z c < n - 1 /\ 0 <= co_t c < n /\ 0 <= co_b c < k.
Definition co_s (c : coord) : Z := n * co_z c + co_t c.
Definition id_of (c : coord) : chunkid :=
  let base := co_r c * datachunks L + co_s c * m in
  if co_b c <? m then Data (base + co_b c) else Parity base (co_b c - m).
Definition co_y (c : coord) : Z := co_z c + 1.

Definition valid_id (x : chunkid) : Prop :=
  match x with
  | Data a => 0 <= a
  | Parity a i => 0 <= a /\ a mod m = 0 /\ 0 <= i < f
  end.

Definition coord_of (x : chunkid) : coord :=
  let a := address x in
  let s := (a mod datachunks L) / m in
  Co (a / datachunks L) (s / n) (s mod n)
     (match x with Data a => a mod m | Parity _ i => m + i end).

Lemma dc_pos : 0 < datachunks L.
Proof. unfold datachunks, stripes. pose proof n_pos. pose proof m_bound. nia. Qed.

Lemma dc_m : datachunks L = m * (n * (n - 1)).
Proof. unfold datachunks, stripes. ring. Qed.

Lemma mod_dc_mod_m a : (a mod datachunks L) mod m = a mod m.
Proof.
  pose proof m_bound. pose proof n_pos.
  rewrite dc_m. rewrite Z.rem_mul_r by nia.
  rewrite Z.mul_comm, Z.mod_add by lia. apply Z.mod_mod. lia.
Qed.

Lemma coord_of_valid x : valid_id x -> valid_coord (coord_of x).
Proof.
  intros Hx. pose proof m_bound as Hm. pose proof n_pos as Hn. pose proof dc_pos as Hd.
  assert (Ha : 0 <= address x) by (destruct x; cbn in *; lia).
  unfold valid_coord, coord_of; cbn [co_r co_z co_t co_b].
  assert (Hs : 0 <= (address x mod datachunks L) / m < n * (n - 1)).
  { pose proof (Z.mod_pos_bound (address x) (datachunks L) Hd) as H.
    split; [apply Z.div_pos; lia|]. apply Z.div_lt_upper_bound; [lia|].
    rewrite <- dc_m. apply H. }
  set (s := (address x mod datachunks L) / m) in *. clearbody s.
  repeat split.
  - apply Z.div_pos; lia.
  - apply Z.div_pos; lia.
  - apply Z.div_lt_upper_bound; lia.
  - apply Z.mod_pos_bound; lia.
  - apply Z.mod_pos_bound; lia.
  - destruct x; cbn in *; [apply Z.mod_pos_bound; lia|lia].
  - pose proof (m_eq). destruct HV. destruct x; cbn in *.
    + pose proof (Z.mod_pos_bound a m). lia.
    + lia.
Qed.

Lemma id_of_coord_of x : valid_id x -> id_of (coord_of x) = x.
Proof.
  intros Hx. pose proof m_bound as Hm. pose proof n_pos as Hn. pose proof dc_pos as Hd.
  unfold id_of, coord_of, co_s; cbn [co_r co_z co_t co_b].
  rewrite <- Z.div_mod by lia.
  assert (E : address x / datachunks L * datachunks L + (address x mod datachunks L) / m * m
              = address x - address x mod m).
  { pose proof (Z.div_mod (address x) (datachunks L)).
    pose proof (Z.div_mod (address x mod datachunks L) m).
    rewrite mod_dc_mod_m in H0. lia. }
  rewrite E. destruct x as [a|a i]; cbn [address] in *.
  - pose proof (Z.mod_pos_bound a m). destruct (Z.ltb_spec (a mod m) m); [|lia].
    f_equal. lia.
  - cbn in Hx. destruct (Z.ltb_spec (m + i) m); [lia|]. f_equal; lia.
Qed.

Lemma id_of_valid c : valid_coord c -> valid_id (id_of c).
Proof.
  intros (Hr & Hz & Ht & Hb). pose proof m_bound as Hm. pose proof dc_pos as Hd.
  unfold id_of. cbn zeta.
  assert (0 <= co_r c * datachunks L) by nia.
  assert (0 <= co_s c) by (unfold co_s; nia).
  assert (0 <= co_s c * m) by nia.
  destruct (Z.ltb_spec (co_b c) m); cbn [valid_id].
  - lia.
  - pose proof m_eq. repeat split; try lia.
    rewrite dc_m.
    replace (co_r c * (m * (n * (n - 1))) + co_s c * m)
      with ((co_r c * (n * (n - 1)) + co_s c) * m) by ring.
    apply Z.mod_mul. lia.
Qed.

Lemma address_split c : valid_coord c ->
  exists e, 0 <= e < m /\ address (id_of c) = co_r c * datachunks L + (co_s c * m + e) /\
            (co_b c < m -> e = co_b c) /\ (m <= co_b c -> e = 0) /\
            0 <= co_s c < n * (n - 1) /\ 0 <= co_s c * m + e < datachunks L.
Proof.
  intros (Hr & Hz & Ht & Hb). pose proof m_bound as Hm.
  assert (Hs : 0 <= co_s c < n * (n - 1)) by (unfold co_s; nia).
  exists (if co_b c <? m then co_b c else 0).
  unfold id_of. cbn zeta. rewrite dc_m.
  destruct (Z.ltb_spec (co_b c) m); cbn [address]; repeat split; try lia; try nia.
Qed.

Lemma id2loc_int_id_of c : valid_coord c ->
  exists e, 0 <= e < m /\ id2loc_int L (id_of c) =
    Cli (co_s c * m + e) (co_r c) (co_s c) (co_y c) (co_z c) /\
    (co_b c < m -> e = co_b c) /\ (m <= co_b c -> e = 0).
Proof.
  intros Hc. destruct (address_split c Hc) as (e & He & Ha & He1 & He2 & Hs & Hb).
  destruct Hc as (Hr & Hz & Ht & Hbk).
  pose proof m_bound as Hm. pose proof n_pos as Hn. pose proof dc_pos as Hd.
  exists e. split; [exact He|]. split; [|auto].
  unfold id2loc_int, id2rep_and_iter. rewrite Ha.
  assert (E1 : (co_r c * datachunks L + (co_s c * m + e)) mod datachunks L = co_s c * m + e).
  { rewrite Z.add_comm, Z.mod_add by lia. apply Z.mod_small. lia. }
  assert (E2 : (co_r c * datachunks L + (co_s c * m + e)) / datachunks L = co_r c).
  { rewrite Z.add_comm, Z.div_add by lia. rewrite Z.div_small by lia. lia. }
  assert (E3 : (co_s c * m + e) / m = co_s c).
  { rewrite Z.add_comm, Z.div_add by lia. rewrite Z.div_small by lia. lia. }
  rewrite E1, E2, E3.
  assert (E4 : (co_s c * m + e) / (m * n) = co_z c).
  { rewrite <- Z.div_div by lia. rewrite E3. unfold co_s.
    rewrite Z.mul_comm, Z.add_comm, Z.div_add by lia. rewrite Z.div_small by lia. lia. }
  rewrite E4. rewrite Z.mod_small by lia. reflexivity.
Qed.

Lemma ows_id_of c : valid_coord c ->
  offset_within_stripe L (id_of c) (c_a (id2loc_int L (id_of c))) (c_s (id2loc_int L (id_of c))) = co_b c.
Proof.
  intros Hc. destruct (id2loc_int_id_of c Hc) as (e & He & -> & He1 & He2). cbn [c_a c_s].
  unfold id_of. cbn zeta. destruct (Z.ltb_spec (co_b c) m); cbn [offset_within_stripe]; lia.
Qed.

Lemma coord_of_id_of c : valid_coord c -> coord_of (id_of c) = c.
Proof.
  intros Hc. destruct (address_split c Hc) as (e & He & Ha & He1 & He2 & Hs & Hb).
  destruct Hc as (Hr & Hz & Ht & Hbk).
  pose proof m_bound as Hm. pose proof n_pos as Hn. pose proof dc_pos as Hd.
  unfold coord_of. rewrite Ha.
  rewrite (Z.add_comm (co_r c * datachunks L)), Z.mod_add, Z.div_add by lia.
  rewrite (Z.mod_small (co_s c * m + e)), (Z.div_small (co_s c * m + e)) by lia.
  rewrite (Z.add_comm (co_s c * m)), Z.div_add, (Z.div_small e) by lia.
  rewrite Z.add_0_l.
  destruct c as [r z t b]; unfold co_s in *; cbn [co_r co_z co_t co_b] in *.
  rewrite Z.add_0_l.
  f_equal.
  - rewrite Z.mul_comm, Z.add_comm, Z.div_add, Z.div_small by lia. lia.
  - rewrite Z.mul_comm, Z.add_comm, Z.mod_add, Z.mod_small by lia. reflexivity.
  - unfold id_of, co_s; cbn [co_r co_z co_t co_b]. destruct (Z.ltb_spec b m).
    + rewrite He1 in Ha by lia.
      replace (r * datachunks L + (n * z + t) * m + b)
        with (b + (r * (n * (n - 1)) + (n * z + t)) * m) by (rewrite dc_m; ring).
      rewrite Z.mod_add by lia. apply Z.mod_small. lia.
    + lia.
Qed.

(** * The disk and row of a coordinate *)

Definition diskof (c : coord) : Z := ((co_s c * m + co_b c) * co_y c) mod n.

(** The stripe within the iteration in which disk [d] holds position [b]. *)
Definition sigma (d y b : Z) : Z := ((d * invmod y n - b) * minv) mod n.

Lemma sigma_range d y b : 0 <= sigma d y b < n.
Proof. apply Z.mod_pos_bound. pose proof n_pos; lia. Qed.

Lemma sigma_char d y b t : 0 <= t < n ->
  (sigma d y b = t <-> cong n (d * invmod y n) (t * m + b)).
Proof.
  intros Ht. pose proof n_pos as Hn. destruct minv_spec as [Hmi _].
  set (X := d * invmod y n).
  assert (Hs : cong n (sigma d y b) ((X - b) * minv)) by (apply cong_mod; lia).
  split.
  - intros E. rewrite E in Hs.
    assert (H : cong n (t * m) (X - b)).
    { eapply cong_trans; [apply cong_mul; [exact Hs|apply cong_refl]|].
      replace ((X - b) * minv * m) with ((X - b) * (m * minv)) by ring.
      rewrite <- (Z.mul_1_r (X - b)) at 2. apply cong_mul; [apply cong_refl|exact Hmi]. }
    apply cong_sym. replace X with (X - b + b) by ring.
    apply cong_add; [exact H|apply cong_refl].
  - intros E. apply (cong_small n); [|apply sigma_range|exact Ht].
    eapply cong_trans; [exact Hs|].
    assert (H : cong n (X - b) (t * m)).
    { replace (t * m) with (t * m + b - b) by ring. apply cong_sub; [exact E|apply cong_refl]. }
    eapply cong_trans; [apply cong_mul; [exact H|apply cong_refl]|].
    replace (t * m * minv) with (t * (m * minv)) by ring.
    rewrite <- (Z.mul_1_r t) at 2. apply cong_mul; [apply cong_refl|exact Hmi].
Qed.

Lemma sigma_spec d y b : cong n (d * invmod y n) (sigma d y b * m + b).
Proof. apply sigma_char; [apply sigma_range|reflexivity]. Qed.

Lemma sigma_inj d y b b' : 0 <= b < k -> 0 <= b' < k -> sigma d y b = sigma d y b' -> b = b'.
Proof.
  intros Hb Hb' E. pose proof (sigma_spec d y b) as H1. pose proof (sigma_spec d y b') as H2.
  rewrite <- E in H2. destruct HV.
  assert (H : cong n (sigma d y b * m + b) (sigma d y b * m + b')).
  { eapply cong_trans; [apply cong_sym; exact H1|exact H2]. }
  apply (cong_small n); [|lia|lia].
  replace b with (sigma d y b * m + b - sigma d y b * m) by ring.
  replace b' with (sigma d y b * m + b' - sigma d y b * m) at 1 by ring.
  apply cong_sub; [exact H|apply cong_refl].
Qed.

Lemma disk_char c d : valid_coord c -> 0 <= d < n ->
  (diskof c = d <-> cong n (d * invmod (co_y c) n) (co_t c * m + co_b c)).
Proof.
  intros (Hr & Hz & Ht & Hb) Hd. pose proof n_pos as Hn.
  destruct (yinv_spec (co_y c)) as [Hy _]; [unfold co_y; lia|].
  set (yi := invmod (co_y c) n) in *.
  assert (Hst : cong n (co_s c * m + co_b c) (co_t c * m + co_b c)).
  { unfold co_s. exists (co_z c * m). ring. }
  split.
  - intros <-. eapply cong_trans; [|exact Hst]. unfold diskof.
    eapply cong_trans; [apply cong_mul; [apply cong_mod; lia|apply cong_refl]|].
    rewrite <- Z.mul_assoc. rewrite <- (Z.mul_1_r (co_s c * m + co_b c)) at 2.
    apply cong_mul; [apply cong_refl|exact Hy].
  - intros H. unfold diskof. apply (cong_small n); [|apply Z.mod_pos_bound; lia|exact Hd].
    eapply cong_trans; [apply cong_mod; lia|].
    eapply cong_trans.
    { apply cong_mul; [|apply cong_refl].
      eapply cong_trans; [exact Hst|apply cong_sym; exact H]. }
    replace (d * yi * co_y c) with (d * (co_y c * yi)) by ring.
    rewrite <- (Z.mul_1_r d) at 2. apply cong_mul; [apply cong_refl|exact Hy].
Qed.

Lemma diskof_range c : 0 <= diskof c < n.
Proof. apply Z.mod_pos_bound. pose proof n_pos; lia. Qed.

Lemma sigma_diskof c : valid_coord c -> sigma (diskof c) (co_y c) (co_b c) = co_t c.
Proof.
  intros Hc. apply sigma_char; [apply Hc|].
  apply (disk_char c); [exact Hc|apply diskof_range|reflexivity].
Qed.

(** Number of chunks on disk [d] in the stripes before [t] of an iteration. *)
Definition cnt (d y t : Z) : Z := count (fun b => sigma d y b <? t) (zrange 0 k).

Lemma o0_count d y t b : 0 <= t < n -> 0 <= b < k -> sigma d y b = t ->
  (t * m + b) / n = count (fun b' => sigma d y b' <? t) (zrange 0 m).
Proof.
  intros Ht Hb Hs. pose proof n_pos as Hn. pose proof m_bound as Hm. destruct HV as [_ Hk _].
  apply sigma_char in Hs; [|exact Ht].
  set (X := d * invmod y n) in *.
  transitivity (count (fun _ : Z => true) (zrange 0 ((t * m + b) / n))).
  { rewrite count_all_true by reflexivity. rewrite zrange_length.
    assert (0 <= (t * m + b) / n) by (apply Z.div_pos; nia). lia. }
  symmetry.
  apply (count_perm_bij _ _ _ _ (fun b' => (sigma d y b' * m + b') / n));
    try apply NoDup_zrange.
  - intros b' Hb' Hlt. apply in_zrange in Hb'. split; [|reflexivity].
    apply Z.ltb_lt in Hlt. pose proof (sigma_range d y b'). pose proof (sigma_spec d y b') as Hs'.
    apply in_zrange. split; [apply Z.div_pos; nia|].
    destruct (cong_trans n _ _ _ (cong_sym _ _ _ Hs) Hs') as [q Hq].
    assert (Hq' : t * m + b = (sigma d y b' * m + b') + n * q) by lia.
    assert (0 < q) by nia.
    rewrite Hq'. rewrite (Z.mul_comm n q), Z.div_add by lia. lia.
  - intros x x' Hx Hx' Hlt Hlt' E. apply in_zrange in Hx, Hx'.
    pose proof (cong_trans n _ _ _ (cong_sym _ _ _ (sigma_spec d y x)) (sigma_spec d y x')) as Hc.
    apply cong_mod_eq in Hc; [|lia].
    assert (Eq : sigma d y x * m + x = sigma d y x' * m + x').
    { rewrite (Z.div_mod (sigma d y x * m + x) n), (Z.div_mod (sigma d y x' * m + x') n) by lia.
      congruence. }
    assert (sigma d y x = sigma d y x') by nia. nia.
  - intros q Hq _. apply in_zrange in Hq.
    set (x := q * n + (t * m + b) mod n).
    pose proof (Z.mod_pos_bound (t * m + b) n ltac:(lia)) as Hmb.
    pose proof (Z.div_mod (t * m + b) n ltac:(lia)) as Hdm.
    assert (Hx : 0 <= x < t * m) by (unfold x; nia).
    exists (x mod m).
    pose proof (Z.mod_pos_bound x m ltac:(lia)) as Hxm.
    pose proof (Z.div_mod x m ltac:(lia)) as Hxd.
    assert (Hdiv : 0 <= x / m < t) by (split; [apply Z.div_pos; lia|apply Z.div_lt_upper_bound; lia]).
    assert (Hsx : sigma d y (x mod m) = x / m).
    { apply sigma_char; [lia|]. replace (x / m * m + x mod m) with x by lia.
      eapply cong_trans; [exact Hs|]. unfold x. exists ((t * m + b) / n - q). lia. }
    rewrite Hsx. repeat split.
    + apply in_zrange. lia.
    + apply Z.ltb_lt. lia.
    + replace (x / m * m + x mod m) with x by lia. unfold x.
      rewrite Z.add_comm, Z.div_add by lia. rewrite Z.div_small by lia. lia.
Qed.

Lemma fold_count {A} (p : A -> bool) l acc :
  fold_left (fun acc j => (if p j then 1 else 0) + acc) l acc = acc + count p l.
Proof.
  revert acc; induction l as [|x l IH]; intros acc; cbn [fold_left].
  - rewrite count_nil. lia.
  - rewrite IH, count_cons. lia.
Qed.

Lemma zseq_shift a b len : zseq (a + b) len = map (fun x => a + x) (zseq b len).
Proof.
  revert b; induction len as [|l IH]; intros b; cbn [zseq map]; [reflexivity|].
  f_equal. rewrite <- IH. f_equal. lia.
Qed.

Lemma owi_spec c e : valid_coord c ->
  offset_within_iteration L (Cli e (co_r c) (co_s c) (co_y c) (co_z c)) (co_b c) (diskof c)
  = k * co_z c + cnt (diskof c) (co_y c) (co_t c).
Proof.
  intros Hc. pose proof (sigma_diskof c Hc) as Hsig.
  destruct Hc as (Hr & Hz & Ht & Hb). pose proof n_pos as Hn. pose proof m_bound as Hm.
  destruct minv_spec as [Hmi _].
  unfold offset_within_iteration; cbn [c_s c_y c_z].
  rewrite fold_count.
  assert (E0 : (co_s c * m + co_b c) / n = co_z c * m + (co_t c * m + co_b c) / n).
  { unfold co_s. replace ((n * co_z c + co_t c) * m + co_b c)
      with (co_t c * m + co_b c + (co_z c * m) * n) by ring.
    rewrite Z.div_add by lia. lia. }
  rewrite E0.
  rewrite (o0_count (diskof c) (co_y c)) by (try exact Hsig; lia).
  unfold cnt. pose proof m_eq as Hme. destruct HV as [_ Hk Hf].
  rewrite (zrange_split 0 m k) by lia. rewrite count_app.
  assert (E2 : count (fun j => co_s c mod n >? ((diskof c * invmod (co_y c) n - j) * minv - 1) mod n)
                 (zrange 0 f)
               = count (fun b => sigma (diskof c) (co_y c) b <? co_t c) (zrange m k)).
  { unfold zrange. replace (k - m) with (f - 0) by lia.
    replace (zseq m (Z.to_nat (f - 0))) with (zseq (m + 0) (Z.to_nat (f - 0)))
      by (f_equal; lia).
    rewrite zseq_shift, count_map.
    apply count_ext. intros j _. rewrite Z.gtb_ltb. f_equal.
    - unfold sigma. apply cong_mod_eq; [lia|].
      replace ((diskof c * invmod (co_y c) n - (m + j)) * minv)
        with ((diskof c * invmod (co_y c) n - j) * minv - m * minv) by ring.
      apply cong_sub; [apply cong_refl|apply cong_sym; exact Hmi].
    - unfold co_s. rewrite Z.add_comm, Z.mul_comm, Z.mod_add by lia. apply Z.mod_small. lia. }
  rewrite E2. rewrite Hme. ring.
Qed.

Lemma id2loc_id_of c : valid_coord c ->
  id2loc L (id_of c) =
  Loc (diskof c) (co_r c * depth L + k * co_z c + cnt (diskof c) (co_y c) (co_t c)).
Proof.
  intros Hc. unfold id2loc. rewrite (ows_id_of c Hc).
  destruct (id2loc_int_id_of c Hc) as (e & He & E & _). rewrite E.
  cbn [c_s c_y c_r]. fold (diskof c). rewrite owi_spec by exact Hc. f_equal. lia.
Qed.

(** * Positions of stripes on a disk *)

Lemma cnt_bounds c : valid_coord c -> 0 <= cnt (diskof c) (co_y c) (co_t c) < k.
Proof.
  intros Hc. pose proof (sigma_diskof c Hc) as Hs. destruct Hc as (Hr & Hz & Ht & Hb).
  split; [apply count_nonneg|].
  unfold cnt. rewrite (zrange_split 0 (co_b c) k) by lia. rewrite (zrange_cons (co_b c) k) by lia.
  rewrite count_app, count_cons, Hs, Z.ltb_irrefl.
  pose proof (count_le_length (fun b => sigma (diskof c) (co_y c) b <? co_t c) (zrange 0 (co_b c))).
  pose proof (count_le_length (fun b => sigma (diskof c) (co_y c) b <? co_t c) (zrange (co_b c + 1) k)).
  rewrite zrange_length in *. lia.
Qed.

Definition member (d y t : Z) : bool :=
  existsb (fun i => ((d * invmod y n - i) * minv) mod n =? t) (zrange 0 k).

Lemma member_spec d y t : member d y t = true <-> exists b, 0 <= b < k /\ sigma d y b = t.
Proof.
  unfold member. rewrite existsb_exists. split.
  - intros (b & Hb & E). apply in_zrange in Hb. apply Z.eqb_eq in E. exists b. auto.
  - intros (b & Hb & E). exists b. rewrite in_zrange. split; [exact Hb|]. apply Z.eqb_eq. exact E.
Qed.

Lemma count_member d y t : 0 <= t <= n -> count (member d y) (zrange 0 t) = cnt d y t.
Proof.
  intros Ht. symmetry. unfold cnt.
  apply (count_perm_bij _ _ _ _ (sigma d y)); try apply NoDup_zrange.
  - intros b Hb Hlt. apply in_zrange in Hb. apply Z.ltb_lt in Hlt.
    pose proof (sigma_range d y b). rewrite in_zrange, member_spec. split; [lia|]. eauto.
  - intros b b' Hb Hb' _ _ E. apply in_zrange in Hb, Hb'. eapply sigma_inj; eauto.
  - intros x Hx Hm. apply member_spec in Hm. destruct Hm as (b & Hb & E).
    apply in_zrange in Hx. exists b. rewrite in_zrange. repeat split; try lia; auto.
Qed.

Lemma cnt_all d y : cnt d y n = k.
Proof.
  unfold cnt. rewrite count_all_true.
  - rewrite zrange_length. destruct HV. lia.
  - intros b _. apply Z.ltb_lt. apply sigma_range.
Qed.

Lemma stripe_set_length d y : length (stripe_set L d (invmod y n)) = Z.to_nat k.
Proof.
  pose proof n_pos.
  pose proof (count_member d y n ltac:(lia)) as H1. rewrite cnt_all in H1.
  unfold count, member in H1. unfold stripe_set. lia.
Qed.

Lemma nth_stripe_set d y t : 0 <= t < n -> member d y t = true ->
  nth_error (stripe_set L d (invmod y n)) (Z.to_nat (cnt d y t)) = Some t.
Proof.
  intros Ht Hm. rewrite <- count_member by lia. apply nth_filter_zrange; assumption.
Qed.

Lemma nth_stripe_set_inv d y i t : 0 <= i ->
  nth_error (stripe_set L d (invmod y n)) (Z.to_nat i) = Some t ->
  0 <= t < n /\ member d y t = true /\ cnt d y t = i.
Proof.
  intros Hi H. pose proof (nth_error_In _ _ H) as Hin.
  unfold stripe_set in Hin. apply filter_In in Hin. destruct Hin as [Ht Hm].
  apply in_zrange in Ht. split; [exact Ht|]. split; [exact Hm|].
  pose proof (nth_stripe_set d y t Ht Hm) as H2.
  assert (E : Z.to_nat (cnt d y t) = Z.to_nat i).
  { eapply NoDup_nth_error_inj; [|exact H2|exact H].
    unfold stripe_set. apply NoDup_filter, NoDup_zrange. }
  unfold cnt in *. pose proof (count_nonneg (fun b => sigma d y b <? t) (zrange 0 k)). lia.
Qed.

(** * Round trips *)

Lemma depth_pos : 0 < depth L.
Proof. unfold depth. pose proof n_pos. destruct HV. nia. Qed.

Lemma row_split r z w : 0 <= r -> 0 <= z < n - 1 -> 0 <= w < k ->
  (r * depth L + k * z + w) / depth L = r /\
  (r * depth L + k * z + w) mod depth L = k * z + w /\
  (k * z + w) / k = z.
Proof.
  intros Hr Hz Hw. pose proof depth_pos as Hd.
  assert (Hkz : 0 <= k * z + w < depth L) by (unfold depth; nia).
  replace (r * depth L + k * z + w) with (k * z + w + r * depth L) by ring.
  rewrite Z.div_add, Z.mod_add by lia.
  rewrite Z.div_small, Z.mod_small by lia.
  repeat split; try lia.
  rewrite Z.add_comm, Z.mul_comm, Z.div_add by lia. rewrite Z.div_small by lia. lia.
Qed.

Lemma mod_stripe_b c : valid_coord c ->
  (diskof c * invmod (co_y c) n - co_s c * m) mod n = co_b c.
Proof.
  intros Hc. pose proof n_pos. pose proof (disk_char c (diskof c) Hc (diskof_range c)) as [H1 _].
  specialize (H1 eq_refl). destruct Hc as (Hr & Hz & Ht & Hb). destruct HV as [_ Hk _].
  apply (cong_small n); [|apply Z.mod_pos_bound; lia|lia].
  eapply cong_trans; [apply cong_mod; lia|].
  replace (co_b c) with (co_t c * m + co_b c - co_t c * m) by ring.
  apply cong_sub; [exact H1|]. unfold co_s. exists (co_z c * m). ring.
Qed.

Lemma loc2id_id2loc c : valid_coord c -> loc2id L (id2loc L (id_of c)) = Some (id_of c).
Proof.
  intros Hc. rewrite id2loc_id_of by exact Hc.
  pose proof (cnt_bounds c Hc) as Hw. pose proof (mod_stripe_b c Hc) as Hb'.
  pose proof (sigma_diskof c Hc) as Hsig.
  pose proof Hc as (Hr & Hz & Ht & Hb).
  destruct (row_split (co_r c) (co_z c) _ Hr Hz Hw) as (E1 & E2 & E3).
  unfold loc2id; cbn [l_offset l_disk]. rewrite E1, E2, E3.
  rewrite (Z.mod_small (co_z c)) by lia. fold (co_y c).
  replace (k * co_z c + cnt (diskof c) (co_y c) (co_t c) - k * co_z c)
    with (cnt (diskof c) (co_y c) (co_t c)) by ring.
  rewrite nth_stripe_set; [|lia|apply member_spec; eauto].
  replace (co_t c + n * co_z c) with (co_s c) by (unfold co_s; ring).
  rewrite Hb'. unfold id_of. cbn zeta. rewrite Z.geb_leb.
  destruct (Z.leb_spec m (co_b c)), (Z.ltb_spec (co_b c) m); try lia; f_equal; f_equal; lia.
Qed.

Definition valid_loc (l : chunkloc) : Prop := 0 <= l_disk l < n /\ 0 <= l_offset l.

Lemma id2loc_valid c : valid_coord c -> valid_loc (id2loc L (id_of c)).
Proof.
  intros Hc. rewrite id2loc_id_of by exact Hc. split; cbn [l_disk l_offset]; [apply diskof_range|].
  pose proof (cnt_bounds c Hc). destruct Hc as (Hr & Hz & Ht & Hb).
  pose proof depth_pos. destruct HV. nia.
Qed.

Lemma id2loc_loc2id l : valid_loc l ->
  exists c, valid_coord c /\ loc2id L l = Some (id_of c) /\ id2loc L (id_of c) = l.
Proof.
  intros [Hd Ho]. pose proof depth_pos as Hdp. pose proof n_pos as Hn.
  assert (Hk : 1 < k <= n) by apply HV.
  set (r := l_offset l / depth L). set (off := l_offset l mod depth L).
  assert (Hoff : 0 <= off < depth L) by (apply Z.mod_pos_bound; lia).
  assert (Hr : 0 <= r) by (apply Z.div_pos; lia).
  set (z := off / k).
  assert (Hz : 0 <= z < n - 1).
  { split; [apply Z.div_pos; lia|]. apply Z.div_lt_upper_bound; [lia|exact (proj2 Hoff)]. }
  set (w := off - k * z).
  assert (Hw : 0 <= w < k).
  { unfold w, z. pose proof (Z.div_mod off k). pose proof (Z.mod_pos_bound off k). lia. }
  set (y := z + 1).
  destruct (nth_error (stripe_set L (l_disk l) (invmod y n)) (Z.to_nat w)) as [t|] eqn:E.
  2:{ apply nth_error_None in E. rewrite stripe_set_length in E. lia. }
  destruct (nth_stripe_set_inv (l_disk l) y w t) as (Ht & Hm & Hcnt); [lia|exact E|].
  apply member_spec in Hm. destruct Hm as (b & Hb & Hs).
  set (c := Co r z t b).
  assert (Hc : valid_coord c) by (repeat split; cbn; lia).
  assert (Hdk : diskof c = l_disk l).
  { apply disk_char; [exact Hc|exact Hd|]. unfold co_y; cbn [co_z co_t co_b c].
    apply sigma_char; [lia|exact Hs]. }
  assert (Hl : id2loc L (id_of c) = l).
  { rewrite id2loc_id_of by exact Hc. rewrite Hdk. unfold co_y; cbn [co_r co_z co_t c].
    fold y. rewrite Hcnt. destruct l as [d o]; cbn [l_disk l_offset] in *. f_equal.
    unfold w. replace (r * depth L + k * z + (off - k * z)) with (depth L * r + off) by ring.
    symmetry. apply Z.div_mod. lia. }
  exists c. split; [exact Hc|]. split; [|exact Hl].
  rewrite <- Hl. apply loc2id_id2loc. exact Hc.
Qed.

End Layout.
