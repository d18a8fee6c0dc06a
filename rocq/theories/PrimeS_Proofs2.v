(** Further proofs about PRIME-S: stripes, density, monotonicity, the iterator,
    the parallel read count and the primality test. *)
From Coq Require Import Znumtheory.
From Verif Require Import Common PrimeS_Model PrimeS_Proofs.

Lemma count_inj_le {A B} (p : A -> bool) (l1 : list A) (l2 : list B) (g : A -> B) :
  NoDup l1 ->
  (forall x, In x l1 -> p x = true -> In (g x) l2) ->
  (forall x x', In x l1 -> In x' l1 -> p x = true -> p x' = true -> g x = g x' -> x = x') ->
  count p l1 <= Z.of_nat (length l2).
Proof.
  intros N1 Hto Hinj. unfold count.
  enough (length (filter p l1) <= length l2)%nat by lia.
  rewrite <- (map_length g (filter p l1)).
  apply NoDup_incl_length.
  - assert (N1' : NoDup (filter p l1)) by (now apply NoDup_filter).
    assert (Hinj' : forall x x', In x (filter p l1) -> In x' (filter p l1) -> g x = g x' -> x = x').
    { intros x x' Hx Hx'. apply filter_In in Hx, Hx'. apply Hinj; tauto. }
    clear -N1' Hinj'. induction N1' as [|x l Hx Nl IH]; cbn [map]; constructor.
    + intros Hin. apply in_map_iff in Hin. destruct Hin as (x' & E & Hx').
      apply Hx. rewrite (Hinj' x x'); [exact Hx'|now left|now right|congruence].
    + apply IH. intros a b Ha Hb. apply Hinj'; now right.
  - intros y Hy. apply in_map_iff in Hy. destruct Hy as (x & <- & Hx).
    apply filter_In in Hx. apply Hto; tauto.
Qed.

(** * Primality test *)

Lemma divide_mod_false n i : 0 < i -> (n mod i =? 0) = false -> ~ (i | n).
Proof.
  intros Hi H D. apply Z.eqb_neq in H. apply H. apply Z.mod_divide; [lia|exact D].
Qed.

Lemma is_prime_loop_spec n : 3 < n -> ~ (2 | n) -> ~ (3 | n) ->
  forall fuel i,
  n < i + 6 * Z.of_nat fuel -> 5 <= i -> i mod 6 = 5 ->
  (forall d, 1 < d < i -> ~ (d | n)) ->
  exists b, is_prime_loop fuel i n = Some b /\ (b = true <-> prime n).
Proof.
  intros Hn H2 H3. induction fuel as [|fu IH]; intros i Hf Hi Hmod Hd;
    cbn [is_prime_loop]; destruct (Z.leb_spec (i * i) n).
  - nia.
  - exists true. split; [reflexivity|]. split; [intros _|reflexivity].
    apply prime_alt. split; [lia|]. intros d Hdr [e He].
    assert (d < i \/ e < i) as [Hlt|Hlt] by nia.
    + apply (Hd d); [lia|]. exists e. exact He.
    + apply (Hd e); [nia|]. exists d. lia.
  - destruct (n mod i =? 0) eqn:E1; cbn [orb].
    { exists false. split; [reflexivity|]. split; [discriminate|]. intros Hp.
      apply prime_alt in Hp. exfalso. apply (proj2 Hp i); [nia|].
      apply Z.mod_divide; [lia|]. apply Z.eqb_eq. exact E1. }
    destruct (n mod (i + 2) =? 0) eqn:E2.
    { exists false. split; [reflexivity|]. split; [discriminate|]. intros Hp.
      apply prime_alt in Hp. exfalso. apply (proj2 Hp (i + 2)); [nia|].
      apply Z.mod_divide; [lia|]. apply Z.eqb_eq. exact E2. }
    apply IH; [lia|lia| |].
    { rewrite <- Hmod. replace (i + 6) with (i + 1 * 6) by lia. apply Z.mod_add. lia. }
    intros d Hdr Hdiv. pose proof (Z.div_mod i 6 ltac:(lia)) as Hi6. rewrite Hmod in Hi6.
    destruct (Z.lt_ge_cases d i) as [Hlt|Hge]; [apply (Hd d); [lia|exact Hdiv]|].
    assert (Hc : d = i \/ d = i + 1 \/ d = i + 2 \/ d = i + 3 \/ d = i + 4 \/ d = i + 5) by lia.
    set (q := i / 6) in *. clearbody q.
    destruct Hc as [->|[->|[->|[->|[->| ->]]]]].
    + revert Hdiv. apply divide_mod_false; [lia|exact E1].
    + apply H2. eapply Z.divide_trans; [|exact Hdiv]. exists (3 * q + 3). lia.
    + revert Hdiv. apply divide_mod_false; [lia|exact E2].
    + apply H2. eapply Z.divide_trans; [|exact Hdiv]. exists (3 * q + 4). lia.
    + apply H3. eapply Z.divide_trans; [|exact Hdiv]. exists (2 * q + 3). lia.
    + apply H2. eapply Z.divide_trans; [|exact Hdiv]. exists (3 * q + 5). lia.
  - exists true. split; [reflexivity|]. split; [intros _|reflexivity].
    apply prime_alt. split; [lia|]. intros d Hdr [e He].
    assert (d < i \/ e < i) as [Hlt|Hlt] by nia.
    + apply (Hd d); [lia|]. exists e. exact He.
    + apply (Hd e); [nia|]. exists d. lia.
Qed.

Lemma is_prime_spec n : exists b, is_prime n = Some b /\ (b = true <-> prime n).
Proof.
  unfold is_prime. destruct (Z.leb_spec n 1).
  { exists false. split; [reflexivity|]. split; [discriminate|]. intros Hp.
    apply prime_ge_2 in Hp. lia. }
  destruct (Z.leb_spec n 3).
  { exists true. split; [reflexivity|]. split; [intros _|reflexivity].
    assert (n = 2 \/ n = 3) as [->| ->] by lia; [apply prime_2|apply prime_3]. }
  destruct (n mod 2 =? 0) eqn:E2; cbn [orb].
  { exists false. split; [reflexivity|]. split; [discriminate|]. intros Hp.
    apply prime_alt in Hp. exfalso. apply (proj2 Hp 2); [lia|].
    apply Z.mod_divide; [lia|]. apply Z.eqb_eq. exact E2. }
  destruct (n mod 3 =? 0) eqn:E3.
  { exists false. split; [reflexivity|]. split; [discriminate|]. intros Hp.
    apply prime_alt in Hp. exfalso. apply (proj2 Hp 3); [lia|].
    apply Z.mod_divide; [lia|]. apply Z.eqb_eq. exact E3. }
  apply divide_mod_false in E2; [|lia]. apply divide_mod_false in E3; [|lia].
  apply is_prime_loop_spec; try lia; try assumption.
  intros d Hd Hdiv. assert (d = 2 \/ d = 3 \/ d = 4) as [->|[->| ->]] by lia; auto.
  apply E2. eapply Z.divide_trans; [|exact Hdiv]. exists 2. lia.
Qed.

Section Layout.
Variable L : layout.
Hypothesis HV : valid_layout L.

Notation n := (ln L).
Notation k := (lk L).
Notation f := (lf L).
Notation m := (gm L).

(** * Distinct disks within a stripe *)

Lemma stripe_disks_distinct r z t b b' :
  valid_coord L (Co r z t b) -> valid_coord L (Co r z t b') ->
  diskof L (Co r z t b) = diskof L (Co r z t b') -> b = b'.
Proof.
  intros H1 H2 E. pose proof (sigma_diskof L HV _ H1) as S1. pose proof (sigma_diskof L HV _ H2) as S2.
  rewrite <- E in S2. unfold co_y in *; cbn [co_z co_t co_b] in *.
  destruct H1 as (_ & _ & _ & Hb), H2 as (_ & _ & _ & Hb'). cbn in Hb, Hb'.
  apply (sigma_inj L HV (diskof L (Co r z t b)) (z + 1)); [lia|lia|]. congruence.
Qed.

(** * Rows of a repetition *)

Lemma offset_rep c : valid_coord L c -> l_offset (id2loc L (id_of L c)) / depth L = co_r c.
Proof.
  intros Hc. rewrite id2loc_id_of by assumption. cbn [l_offset].
  pose proof (cnt_bounds L HV c Hc) as Hw. destruct Hc as (Hr & Hz & Ht & Hb).
  apply (row_split L HV); assumption.
Qed.

(** * Monotonicity: on one disk, rows follow the order of chunks. *)

Definition coord_lt (c c' : coord) : Prop :=
  co_r c < co_r c' \/
  (co_r c = co_r c' /\
   (co_z c < co_z c' \/
    (co_z c = co_z c' /\
     (co_t c < co_t c' \/ (co_t c = co_t c' /\ co_b c < co_b c'))))).

Lemma cnt_strict d y t t' b : 0 <= b < k -> sigma L d y b = t -> t < t' ->
  cnt L d y t < cnt L d y t'.
Proof.
  intros Hb Hs Ht. unfold cnt. rewrite (zrange_split 0 b k) by lia.
  rewrite (zrange_cons b k) by lia. rewrite !count_app, !count_cons, Hs.
  assert (Hm : forall l, count (fun b => sigma L d y b <? t) l <= count (fun b => sigma L d y b <? t') l).
  { induction l as [|x l IH]; [rewrite !count_nil; lia|]. rewrite !count_cons.
    destruct (Z.ltb_spec (sigma L d y x) t), (Z.ltb_spec (sigma L d y x) t'); lia. }
  pose proof (Hm (zrange 0 b)). pose proof (Hm (zrange (b + 1) k)).
  destruct (Z.ltb_spec t t), (Z.ltb_spec t t'); lia.
Qed.

Lemma offset_mono c c' : valid_coord L c -> valid_coord L c' -> coord_lt c c' ->
  l_disk (id2loc L (id_of L c)) = l_disk (id2loc L (id_of L c')) ->
  l_offset (id2loc L (id_of L c)) < l_offset (id2loc L (id_of L c')).
Proof.
  intros Hc Hc' Hlt. rewrite !id2loc_id_of by assumption. cbn [l_disk l_offset]. intros E.
  pose proof (cnt_bounds L HV c Hc) as Hw. pose proof (cnt_bounds L HV c' Hc') as Hw'.
  pose proof (sigma_diskof L HV c Hc) as Hs. pose proof (sigma_diskof L HV c' Hc') as Hs'.
  pose proof (depth_pos L HV) as Hd.
  pose proof Hc as (Hr & Hz & Ht & Hb). pose proof Hc' as (Hr' & Hz' & Ht' & Hb').
  assert (Hkz : 0 <= k * co_z c + cnt L (diskof L c) (co_y c) (co_t c) < depth L) by (unfold depth; nia).
  assert (Hkz' : 0 <= k * co_z c' + cnt L (diskof L c') (co_y c') (co_t c') < depth L) by (unfold depth; nia).
  destruct Hlt as [H|[Er [H|[Ez [H|[Et H]]]]]].
  - nia.
  - rewrite Er. nia.
  - rewrite Er, Ez. unfold co_y in *. rewrite Ez in *. rewrite <- E in *.
    pose proof (cnt_strict (diskof L c) (co_z c' + 1) (co_t c) (co_t c') (co_b c) Hb Hs H). lia.
  - exfalso. unfold co_y in *. rewrite Ez, Et, E in Hs. rewrite <- Hs' in Hs.
    apply (sigma_inj L HV) in Hs; lia.
Qed.

(** * Numbering of chunks *)

Definition pos (c : coord) : Z := (co_r c * (n * (n - 1)) + co_s L c) * k + co_b c.

Definition coord_at (p : Z) : coord :=
  let s := p / k in
  Co (s / (n * (n - 1))) ((s mod (n * (n - 1))) / n) ((s mod (n * (n - 1))) mod n) (p mod k).

Lemma co_s_range c : valid_coord L c -> 0 <= co_s L c < n * (n - 1).
Proof. intros (Hr & Hz & Ht & Hb). unfold co_s. nia. Qed.

Lemma coord_at_valid p : 0 <= p -> valid_coord L (coord_at p).
Proof.
  intros Hp. pose proof (n_pos L HV) as Hn. destruct HV as [_ Hk _].
  assert (Hnn : 0 < n * (n - 1)) by nia.
  assert (Hs : 0 <= p / k) by (apply Z.div_pos; lia).
  pose proof (Z.mod_pos_bound (p / k) _ Hnn) as Hm.
  unfold valid_coord, coord_at; cbn [co_r co_z co_t co_b].
  split; [apply Z.div_pos; lia|]. split; [split; [apply Z.div_pos; lia|apply Z.div_lt_upper_bound; lia]|].
  split; [apply Z.mod_pos_bound; lia|apply Z.mod_pos_bound; lia].
Qed.

Lemma pos_coord_at p : 0 <= p -> pos (coord_at p) = p.
Proof.
  intros Hp. pose proof (n_pos L HV) as Hn. destruct HV as [_ Hk _].
  unfold pos, coord_at, co_s; cbn [co_r co_z co_t co_b].
  rewrite <- Z.div_mod by lia.
  rewrite (Z.mul_comm (p / k / (n * (n - 1)))), <- Z.div_mod by nia.
  rewrite Z.mul_comm, <- Z.div_mod by lia. reflexivity.
Qed.

Lemma coord_at_pos c : valid_coord L c -> coord_at (pos c) = c.
Proof.
  intros Hc. pose proof (co_s_range c Hc) as Hs. pose proof (n_pos L HV) as Hn.
  destruct Hc as (Hr & Hz & Ht & Hb).
  unfold pos, coord_at.
  rewrite (Z.add_comm _ (co_b c)), Z.div_add, Z.mod_add by lia.
  rewrite (Z.div_small (co_b c)), (Z.mod_small (co_b c)), Z.add_0_l by lia.
  rewrite (Z.add_comm _ (co_s L c)), Z.div_add, Z.mod_add by nia.
  rewrite (Z.div_small (co_s L c)), (Z.mod_small (co_s L c)), Z.add_0_l by lia.
  unfold co_s. rewrite (Z.add_comm _ (co_t c)), (Z.mul_comm n), Z.div_add, Z.mod_add by lia.
  rewrite Z.div_small, Z.mod_small, Z.add_0_l by lia. destruct c; reflexivity.
Qed.

Lemma pos_nonneg c : valid_coord L c -> 0 <= pos c.
Proof.
  intros Hc. pose proof (co_s_range c Hc). pose proof (n_pos L HV).
  destruct Hc as (Hr & Hz & Ht & Hb). unfold pos.
  assert (0 <= n * (n - 1)) by nia.
  assert (0 <= co_r c * (n * (n - 1))) by (apply Z.mul_nonneg_nonneg; lia).
  assert (0 <= (co_r c * (n * (n - 1)) + co_s L c) * k) by (apply Z.mul_nonneg_nonneg; lia). lia.
Qed.

Lemma pos_lt c c' : valid_coord L c -> valid_coord L c' -> pos c < pos c' -> coord_lt c c'.
Proof.
  intros Hc Hc' H. pose proof (co_s_range c Hc) as Hs. pose proof (co_s_range c' Hc') as Hs'.
  destruct Hc as (Hr & Hz & Ht & Hb), Hc' as (Hr' & Hz' & Ht' & Hb').
  unfold pos in H. pose proof (n_pos L HV) as Hn.
  set (S := co_r c * (n * (n - 1)) + co_s L c) in *.
  set (S' := co_r c' * (n * (n - 1)) + co_s L c') in *.
  assert (HS : S < S' \/ (S = S' /\ co_b c < co_b c')) by nia.
  unfold coord_lt.
  assert (Hss : S <= S' -> co_r c < co_r c' \/ (co_r c = co_r c' /\ co_s L c <= co_s L c')).
  { intros HSS. unfold S, S' in HSS. set (N := n * (n - 1)) in *.
    destruct (Z.lt_trichotomy (co_r c) (co_r c')) as [|[E|E]]; [now left|right|nia].
    split; [exact E|]. rewrite E in HSS. lia. }
  destruct HS as [HS|[HS Hbb]].
  - destruct (Hss ltac:(lia)) as [|[E Hle]]; [now left|right]. split; [exact E|].
    assert (Hlt : co_s L c < co_s L c') by (unfold S, S' in HS; rewrite E in HS; lia).
    unfold co_s in Hlt. nia.
  - destruct (Hss ltac:(lia)) as [|[E Hle]]; [now left|right]. split; [exact E|].
    assert (Heq : co_s L c = co_s L c') by (unfold S, S' in HS; rewrite E in HS; lia).
    unfold co_s in Heq. right. assert (co_z c = co_z c') by nia. split; [assumption|].
    right. split; [nia|assumption].
Qed.

(** Successor coordinate. *)
Definition succ_co (c : coord) : coord :=
  if co_b c + 1 <? k then Co (co_r c) (co_z c) (co_t c) (co_b c + 1)
  else if co_t c + 1 <? n then Co (co_r c) (co_z c) (co_t c + 1) 0
  else if co_z c + 1 <? n - 1 then Co (co_r c) (co_z c + 1) 0 0
  else Co (co_r c + 1) 0 0 0.

Lemma succ_valid c : valid_coord L c -> valid_coord L (succ_co c).
Proof.
  intros (Hr & Hz & Ht & Hb). pose proof (n_pos L HV). destruct HV as [_ Hk _].
  unfold succ_co.
  destruct (Z.ltb_spec (co_b c + 1) k); [repeat split; cbn; lia|].
  destruct (Z.ltb_spec (co_t c + 1) n); [repeat split; cbn; lia|].
  destruct (Z.ltb_spec (co_z c + 1) (n - 1)); repeat split; cbn; lia.
Qed.

Lemma succ_pos c : valid_coord L c -> pos (succ_co c) = pos c + 1.
Proof.
  intros (Hr & Hz & Ht & Hb). unfold succ_co, pos, co_s.
  destruct (Z.ltb_spec (co_b c + 1) k); cbn [co_r co_z co_t co_b]; [ring|].
  assert (Eb : co_b c = k - 1) by lia. rewrite Eb.
  destruct (Z.ltb_spec (co_t c + 1) n); cbn [co_r co_z co_t co_b]; [ring|].
  assert (Et : co_t c = n - 1) by lia. rewrite Et.
  destruct (Z.ltb_spec (co_z c + 1) (n - 1)); cbn [co_r co_z co_t co_b]; [ring|].
  assert (Ez : co_z c = n - 2) by lia. rewrite Ez. ring.
Qed.

(** * The per-disk counters of the iterator *)

Definition cu (d y t b : Z) : Z :=
  count (fun b' => (sigma L d y b' <? t) || ((sigma L d y b' =? t) && (b' <? b))) (zrange 0 k).

Lemma cu_zero d y : cu d y 0 0 = 0.
Proof.
  apply count_all_false. intros b Hb. apply in_zrange in Hb. pose proof (sigma_range L HV d y b).
  destruct (Z.ltb_spec (sigma L d y b) 0), (Z.eqb_spec (sigma L d y b) 0), (Z.ltb_spec b 0);
    cbn; lia.
Qed.

Lemma cu_next_stripe d y t : cu d y t k = cu d y (t + 1) 0.
Proof.
  apply count_ext. intros b Hb. apply in_zrange in Hb.
  destruct (Z.ltb_spec (sigma L d y b) t), (Z.eqb_spec (sigma L d y b) t), (Z.ltb_spec b k),
    (Z.ltb_spec (sigma L d y b) (t + 1)), (Z.eqb_spec (sigma L d y b) (t + 1)), (Z.ltb_spec b 0);
    cbn; lia.
Qed.

Lemma cu_full d y : cu d y n 0 = k.
Proof.
  rewrite <- (cnt_all L HV d y). apply count_ext. intros b Hb. apply in_zrange in Hb.
  pose proof (sigma_range L HV d y b).
  destruct (Z.ltb_spec (sigma L d y b) n), (Z.eqb_spec (sigma L d y b) n), (Z.ltb_spec b 0);
    cbn; lia.
Qed.

Lemma cu_step d y t b : 0 <= b < k ->
  cu d y t (b + 1) = cu d y t b + (if sigma L d y b =? t then 1 else 0).
Proof.
  intros Hb. unfold cu. rewrite (zrange_split 0 b k) by lia. rewrite (zrange_cons b k) by lia.
  rewrite !count_app, !count_cons.
  assert (E1 : forall c : Z, (c = b \/ c = b + 1) ->
    count (fun b' => (sigma L d y b' <? t) || ((sigma L d y b' =? t) && (b' <? c))) (zrange 0 b)
    = count (fun b' => (sigma L d y b' <? t) || (sigma L d y b' =? t)) (zrange 0 b)).
  { intros c Hc. apply count_ext. intros x Hx. apply in_zrange in Hx.
    destruct (Z.ltb_spec x c); [now rewrite andb_true_r|lia]. }
  assert (E2 : forall c : Z, (c = b \/ c = b + 1) ->
    count (fun b' => (sigma L d y b' <? t) || ((sigma L d y b' =? t) && (b' <? c))) (zrange (b + 1) k)
    = count (fun b' => (sigma L d y b' <? t)) (zrange (b + 1) k)).
  { intros c Hc. apply count_ext. intros x Hx. apply in_zrange in Hx.
    destruct (Z.ltb_spec x c); [lia|]. now rewrite andb_false_r, orb_false_r. }
  rewrite !E1, !E2 by lia.
  destruct (Z.ltb_spec (sigma L d y b) t), (Z.eqb_spec (sigma L d y b) t),
    (Z.ltb_spec b (b + 1)), (Z.ltb_spec b b); cbn [andb orb]; lia.
Qed.

Lemma cu_at_member c : valid_coord L c ->
  cu (diskof L c) (co_y c) (co_t c) (co_b c) = cnt L (diskof L c) (co_y c) (co_t c).
Proof.
  intros Hc. pose proof (sigma_diskof L HV c Hc) as Hs. destruct Hc as (Hr & Hz & Ht & Hb).
  apply count_ext. intros b' Hb'. apply in_zrange in Hb'.
  destruct (Z.eqb_spec (sigma L (diskof L c) (co_y c) b') (co_t c)) as [E|E]; cbn [andb].
  - rewrite <- E in Hs. apply (sigma_inj L HV) in Hs; [|lia|lia]. subst b'.
    rewrite Z.ltb_irrefl. apply orb_false_r.
  - apply orb_false_r.
Qed.

(** Disk of the chunk at stripe [t], position [b] of an iteration of stride [y]. *)
Definition dk (y t b : Z) : Z := ((t * m + b) * y) mod n.

Lemma dk_diskof c : dk (co_y c) (co_t c) (co_b c) = diskof L c.
Proof.
  pose proof (n_pos L HV). unfold dk, diskof. apply cong_mod_eq; [lia|].
  apply cong_mul; [|apply cong_refl]. apply cong_sym. unfold co_s. exists (co_z c * m). ring.
Qed.

Lemma dk_range y t b : 0 <= dk y t b < n.
Proof. apply Z.mod_pos_bound. pose proof (n_pos L HV). lia. Qed.

Lemma dk_sigma y t b d : 0 < y < n -> 0 <= t < n -> 0 <= b < k -> 0 <= d < n ->
  (dk y t b = d <-> sigma L d y b = t).
Proof.
  intros Hy Ht Hb Hd. set (c := Co 0 (y - 1) t b).
  assert (Hc : valid_coord L c) by (repeat split; cbn; lia).
  assert (Ey : co_y c = y) by (unfold co_y; cbn; lia).
  pose proof (dk_diskof c) as E. rewrite Ey in E. cbn [co_t co_b c] in E. rewrite E.
  rewrite (disk_char L HV c d Hc Hd). rewrite (sigma_char L HV) by exact Ht.
  rewrite Ey. reflexivity.
Qed.

Definition o_ok (o : list Z) (base y t b : Z) : Prop :=
  length o = Z.to_nat n /\ forall d, 0 <= d < n -> o_get o d = base + cu d y t b.

Lemma o_incr_ok o base y t b : 0 < y < n -> 0 <= t < n -> 0 <= b < k ->
  o_ok o base y t b -> o_ok (o_incr o (dk y t b)) base y t (b + 1).
Proof.
  intros Hy Ht Hb [Hlen Ho]. pose proof (dk_range y t b) as Hdk.
  split; [unfold o_incr; now rewrite list_upd_length|].
  intros d Hd. rewrite cu_step by exact Hb.
  pose proof (dk_sigma y t b d Hy Ht Hb Hd) as Hiff.
  unfold o_incr. unfold o_get at 1.
  destruct (Z.eqb_spec (sigma L d y b) t) as [E|E].
  - apply Hiff in E. subst d. rewrite nth_list_upd_eq by lia.
    rewrite (Ho _ Hdk). lia.
  - assert (dk y t b <> d) by tauto. rewrite nth_list_upd_neq by lia.
    fold (o_get o d). rewrite (Ho _ Hd). lia.
Qed.

Lemma inner_fold_ok base y t : 0 < y < n -> 0 <= t < n ->
  forall len b o, 0 <= b -> b + Z.of_nat len <= k ->
  o_ok o base y t b ->
  o_ok (fold_left (fun o b' => o_incr o (dk y t b')) (zseq b len) o) base y t (b + Z.of_nat len).
Proof.
  intros Hy Ht. induction len as [|l IH]; intros b o Hb Hl Ho; cbn [zseq fold_left].
  - replace (b + Z.of_nat 0) with b by lia. exact Ho.
  - replace (b + Z.of_nat (S l)) with (b + 1 + Z.of_nat l) by lia.
    apply IH; [lia|lia|]. apply o_incr_ok; [exact Hy|exact Ht|lia|exact Ho].
Qed.

Lemma outer_fold_ok base y sz b : 0 < y < n -> 0 <= b < k -> 0 <= sz < n ->
  forall len t o, 0 <= t -> t + Z.of_nat len = sz + 1 ->
  o_ok o base y t 0 -> (0 < len)%nat ->
  o_ok (fold_left (fun o s =>
      let e := if s =? sz then b else k in
      fold_left (fun o b' => o_incr o (((s * m + b') * y) mod n)) (zrange 0 e) o)
    (zseq t len) o) base y sz b.
Proof.
  intros Hy Hb Hsz. induction len as [|l IH]; intros t o Ht Hl Ho Hpos; [lia|].
  cbn [zseq fold_left]. cbn zeta.
  destruct (Z.eqb_spec t sz) as [->|Hne].
  - assert (l = O) by lia. subst l. cbn [zseq fold_left].
    pose proof (inner_fold_ok base y sz Hy ltac:(lia) (Z.to_nat b) 0 o ltac:(lia) ltac:(lia) Ho) as H.
    replace (0 + Z.of_nat (Z.to_nat b)) with b in H by lia.
    unfold zrange. rewrite Z.sub_0_r. exact H.
  - apply IH; [lia|lia| |lia].
    pose proof (inner_fold_ok base y t Hy ltac:(lia) (Z.to_nat k) 0 o ltac:(lia) ltac:(lia) Ho) as H.
    replace (0 + Z.of_nat (Z.to_nat k)) with k in H by lia.
    unfold zrange. rewrite Z.sub_0_r. destruct H as [H1 H2]. split; [exact H1|].
    intros d Hd. rewrite <- cu_next_stripe. apply H2. exact Hd.
Qed.

Lemma repeat_ok base y : 0 < n -> o_ok (repeat base (Z.to_nat n)) base y 0 0.
Proof.
  intros Hn. split; [apply repeat_length|]. intros d Hd. rewrite cu_zero.
  unfold o_get. rewrite nth_indep with (d' := base) by (rewrite repeat_length; lia).
  rewrite nth_repeat. lia.
Qed.

(** Iterator invariant at coordinate [c]. *)
Definition it_inv (end_ : chunkid) (c : coord) (it : piter) : Prop :=
  valid_coord L c /\ it_end it = end_ /\ it_id it = id_of L c /\
  it_a it = co_s L c * m + (if co_b c <? m then co_b c else 0) /\
  it_r it = co_r c /\ it_stripe it = co_s L c /\ it_stripe_iter it = co_t c /\
  it_y it = co_y c /\ it_z it = co_z c /\
  o_ok (it_o it) (k * co_z c) (co_y c) (co_t c) (co_b c).

Lemma iter_new_inv c end_ : valid_coord L c -> it_inv end_ c (iter_new L (id_of L c) end_).
Proof.
  intros Hc. pose proof (n_pos L HV) as Hn.
  pose proof (ows_id_of L HV c Hc) as Hows.
  destruct (id2loc_int_id_of L HV c Hc) as (e & He & E & He1 & He2).
  unfold iter_new. rewrite Hows. rewrite E; cbn [c_a c_s c_y c_z c_r].
  pose proof Hc as (Hr & Hz & Ht & Hb).
  assert (Est : co_s L c mod n = co_t c).
  { unfold co_s. rewrite Z.add_comm, Z.mul_comm, Z.mod_add by lia. apply Z.mod_small. lia. }
  rewrite Est.
  split; [exact Hc|]. cbn [it_end it_id it_a it_r it_stripe it_stripe_iter it_y it_z it_o].
  do 2 (split; [reflexivity|]). split.
  { f_equal. destruct (Z.ltb_spec (co_b c) m); auto. }
  do 5 (split; [reflexivity|]).
  unfold iter_init_o. apply outer_fold_ok; try lia.
  - unfold co_y; lia.
  - apply repeat_ok. lia.
Qed.

Lemma next_elem_inv end_ c it : it_inv end_ c it ->
  Loc (fst (next_elem L it)) (snd (next_elem L it)) = id2loc L (id_of L c)
  /\ fst (next_elem L it) = diskof L c.
Proof.
  intros (Hc & _ & Hid & Ha & Hr & Hst & Hsi & Hy & Hz & Ho).
  rewrite id2loc_id_of by assumption.
  unfold next_elem. cbn [fst snd].
  assert (Hb : offset_within_stripe L (it_id it) (it_a it) (it_stripe it) = co_b c).
  { rewrite Hid, Ha, Hst. unfold id_of; cbn zeta. destruct (Z.ltb_spec (co_b c) m);
      cbn [offset_within_stripe]; lia. }
  rewrite Hb, Hst, Hy. fold (diskof L c). split; [|reflexivity]. f_equal.
  rewrite (proj2 Ho) by apply diskof_range, HV. rewrite cu_at_member by exact Hc. rewrite Hr. lia.
Qed.

Lemma chunkid_eqb_spec x y : reflect (x = y) (chunkid_eqb x y).
Proof.
  destruct x as [a|a i], y as [b|b j]; cbn; try (constructor; congruence).
  - destruct (Z.eqb_spec a b); constructor; congruence.
  - destruct (Z.eqb_spec a b), (Z.eqb_spec i j); cbn; constructor; congruence.
Qed.

Lemma iter_next_inv end_ c it : it_inv end_ c it -> id_of L c <> end_ ->
  exists it', iter_next L it = Some ((id_of L c, id2loc L (id_of L c)), it') /\
              it_inv end_ (succ_co c) it'.
Proof.
  intros HI Hne. pose proof (next_elem_inv _ _ _ HI) as [Hloc Hdisk].
  destruct HI as (Hc & Hend & Hid & Ha & Hr & Hst & Hsi & Hy & Hz & Ho).
  pose proof (succ_valid c Hc) as Hsv.
  pose proof (n_pos L HV) as Hn. pose proof (m_bound L HV) as Hm.
  pose proof Hc as (Hrr & Hzz & Htt & Hbb).
  assert (Hyr : 0 < co_y c < n) by (unfold co_y; lia).
  assert (Ho' : o_ok (o_incr (it_o it) (diskof L c)) (k * co_z c) (co_y c) (co_t c) (co_b c + 1)).
  { rewrite <- dk_diskof. apply o_incr_ok; assumption. }
  unfold iter_next. rewrite Hend.
  destruct (chunkid_eqb_spec (it_id it) end_) as [E|_]; [congruence|].
  destruct (next_elem L it) as [disk offset] eqn:En. cbn [fst snd] in Hloc, Hdisk.
  subst disk. rewrite Hloc.
  rewrite Hid. unfold id_of at 3. cbn zeta.
  assert (Hmk : m < k) by (unfold gm; destruct HV; lia).
  assert (Hfk : f = k - m) by (unfold gm; lia).
  destruct (Z.ltb_spec (co_b c) m) as [Hbm|Hbm].
  - (* data chunk *)
    rewrite Ha, Hst.
    destruct (Z.ltb_spec (co_b c) m); [|lia].
    assert (Esucc : succ_co c = Co (co_r c) (co_z c) (co_t c) (co_b c + 1)).
    { unfold succ_co. destruct (Z.ltb_spec (co_b c + 1) k); [reflexivity|lia]. }
    destruct (Z.ltb_spec (co_s L c * m + co_b c) ((co_s L c + 1) * m - 1)).
    + eexists. split; [reflexivity|].
      rewrite Esucc in *. split; [exact Hsv|].
      cbn [it_end it_id it_a it_r it_stripe it_stripe_iter it_y it_z it_o co_r co_z co_t co_b].
      unfold co_y, co_s, id_of in *; cbn [co_r co_z co_t co_b] in *.
      unfold co_s; cbn [co_r co_z co_t co_b].
      destruct (Z.ltb_spec (co_b c + 1) m); [|lia].
      repeat (split; [first [assumption|reflexivity|f_equal; lia|lia]|]). exact Ho'.
    + eexists. split; [reflexivity|].
      rewrite Esucc in *. split; [exact Hsv|].
      cbn [it_end it_id it_a it_r it_stripe it_stripe_iter it_y it_z it_o co_r co_z co_t co_b].
      unfold co_y, co_s, id_of in *; cbn [co_r co_z co_t co_b] in *.
      unfold co_s; cbn [co_r co_z co_t co_b].
      destruct (Z.ltb_spec (co_b c + 1) m); [lia|].
      repeat (split; [first [assumption|reflexivity|f_equal; lia|lia]|]). exact Ho'.
  - destruct (Z.ltb_spec (co_b c) m); [lia|].
    destruct (Z.ltb_spec (co_b c - m) (f - 1)).
    + assert (Esucc : succ_co c = Co (co_r c) (co_z c) (co_t c) (co_b c + 1)).
      { unfold succ_co. destruct (Z.ltb_spec (co_b c + 1) k); [reflexivity|lia]. }
      eexists. split; [reflexivity|].
      rewrite Esucc in *. split; [exact Hsv|].
      cbn [it_end it_id it_a it_r it_stripe it_stripe_iter it_y it_z it_o co_r co_z co_t co_b].
      unfold co_y, co_s, id_of in *; cbn [co_r co_z co_t co_b] in *.
      unfold co_s; cbn [co_r co_z co_t co_b].
      destruct (Z.ltb_spec (co_b c + 1) m); [lia|].
      repeat (split; [first [assumption|reflexivity|f_equal; lia|lia]|]). exact Ho'.
    + assert (Eb : co_b c + 1 = k) by lia. rewrite Eb in Ho'.
      rewrite Hsi, Hz.
      destruct (Z.eqb_spec (co_t c) (n - 1)) as [Et|Et].
      * destruct (Z.eqb_spec (co_z c) (n - 1 - 1)) as [Ez|Ez].
        -- (* next repetition *)
          assert (Esucc : succ_co c = Co (co_r c + 1) 0 0 0).
          { unfold succ_co. destruct (Z.ltb_spec (co_b c + 1) k); [lia|].
            destruct (Z.ltb_spec (co_t c + 1) n); [lia|].
            destruct (Z.ltb_spec (co_z c + 1) (n - 1)); [lia|reflexivity]. }
          eexists. split; [reflexivity|].
          rewrite Esucc in *. split; [exact Hsv|].
          cbn [it_end it_id it_a it_r it_stripe it_stripe_iter it_y it_z it_o co_r co_z co_t co_b].
          unfold co_y, co_s, id_of in *; cbn [co_r co_z co_t co_b] in *.
          unfold co_s; cbn [co_r co_z co_t co_b].
          destruct (Z.ltb_spec 0 m); [|lia].
          split; [first [assumption|reflexivity]|]. split.
          { f_equal. rewrite Et, Ez, (dc_m L). ring. }
          split; [lia|]. split; [lia|]. do 4 (split; [lia|]).
          rewrite (proj1 Ho). replace (k * 0) with 0 by lia.
          apply repeat_ok. lia.
        -- (* next iteration *)
          assert (Esucc : succ_co c = Co (co_r c) (co_z c + 1) 0 0).
          { unfold succ_co. destruct (Z.ltb_spec (co_b c + 1) k); [lia|].
            destruct (Z.ltb_spec (co_t c + 1) n); [lia|].
            destruct (Z.ltb_spec (co_z c + 1) (n - 1)); [reflexivity|lia]. }
          eexists. split; [reflexivity|].
          rewrite Esucc in *. split; [exact Hsv|].
          rewrite (Z.mod_small (co_z c + 1)) by lia.
          cbn [it_end it_id it_a it_r it_stripe it_stripe_iter it_y it_z it_o co_r co_z co_t co_b].
          unfold co_y, co_s, id_of in *; cbn [co_r co_z co_t co_b] in *.
          unfold co_s; cbn [co_r co_z co_t co_b].
          destruct (Z.ltb_spec 0 m); [|lia].
          split; [first [assumption|reflexivity]|]. split.
          { f_equal. rewrite Et. ring. }
          split.
          { rewrite Ha. unfold co_s. destruct (Z.ltb_spec (co_b c) m); [lia|]. rewrite Et. ring. }
          split; [exact Hr|]. split.
          { rewrite Hst. unfold co_s. rewrite Et. ring. }
          do 3 (split; [reflexivity|]).
          destruct Ho' as [Ho1 Ho2]. split; [exact Ho1|]. intros d Hd.
          rewrite Ho2 by exact Hd. rewrite cu_next_stripe, Et.
          replace (n - 1 + 1) with n by lia. rewrite cu_full, cu_zero. ring.
      * (* next stripe *)
        assert (Esucc : succ_co c = Co (co_r c) (co_z c) (co_t c + 1) 0).
        { unfold succ_co. destruct (Z.ltb_spec (co_b c + 1) k); [lia|].
          destruct (Z.ltb_spec (co_t c + 1) n); [reflexivity|lia]. }
        eexists. split; [reflexivity|].
        rewrite Esucc in *. split; [exact Hsv|].
        cbn [it_end it_id it_a it_r it_stripe it_stripe_iter it_y it_z it_o co_r co_z co_t co_b].
        unfold co_y, co_s, id_of in *; cbn [co_r co_z co_t co_b] in *.
        unfold co_s; cbn [co_r co_z co_t co_b].
        destruct (Z.ltb_spec 0 m); [|lia].
        split; [first [assumption|reflexivity]|]. split.
        { f_equal. ring. }
        split.
        { rewrite Ha. unfold co_s. destruct (Z.ltb_spec (co_b c) m); [lia|]. ring. }
        split; [exact Hr|]. split.
        { rewrite Hst. unfold co_s. ring. }
        split; [reflexivity|]. split; [exact Hy|]. split; [first [exact Hz|reflexivity]|].
        destruct Ho' as [Ho1 Ho2]. split; [exact Ho1|]. intros d Hd.
        rewrite Ho2 by exact Hd. rewrite cu_next_stripe. reflexivity.
Qed.

Lemma id_of_inj c c' : valid_coord L c -> valid_coord L c' -> id_of L c = id_of L c' -> c = c'.
Proof.
  intros Hc Hc' E. rewrite <- (coord_of_id_of L HV c Hc), <- (coord_of_id_of L HV c' Hc').
  now rewrite E.
Qed.

Lemma iter_collect_spec ce : valid_coord L ce ->
  forall len c it, it_inv (id_of L ce) c it -> pos c + Z.of_nat len = pos ce ->
  iter_collect L (S len) it =
  (map (fun p => (id_of L (coord_at p), id2loc L (id_of L (coord_at p)))) (zseq (pos c) len), true).
Proof.
  intros Hce. induction len as [|l IH]; intros c it HI Hp.
  - assert (c = ce) as ->.
    { destruct HI as (Hc & _). rewrite <- (coord_at_pos c Hc), <- (coord_at_pos ce Hce). f_equal. lia. }
    cbn [iter_collect zseq map].
    destruct HI as (_ & He & Hid & _). unfold iter_next. rewrite He, Hid.
    destruct (chunkid_eqb_spec (id_of L ce) (id_of L ce)); [reflexivity|congruence].
  - assert (Hc : valid_coord L c) by apply HI.
    destruct (iter_next_inv _ _ _ HI) as (it' & E & HI').
    { intros E. apply id_of_inj in E; [subst c; lia|exact Hc|exact Hce]. }
    change (iter_collect L (S (S l)) it) with
      (match iter_next L it with
            | None => ([], true)
            | Some (x, it') => let '(ll, e) := iter_collect L (S l) it' in (x :: ll, e)
            end).
    rewrite E. rewrite (IH _ _ HI') by (rewrite succ_pos by exact Hc; lia).
    cbn [zseq map]. rewrite coord_at_pos by exact Hc. rewrite succ_pos by exact Hc. reflexivity.
Qed.

Lemma iter_correct cs ce : valid_coord L cs -> valid_coord L ce -> pos cs <= pos ce ->
  iter_collect L (S (Z.to_nat (pos ce - pos cs))) (iter_new L (id_of L cs) (id_of L ce)) =
  (map (fun p => (id_of L (coord_at p), id2loc L (id_of L (coord_at p)))) (zrange (pos cs) (pos ce)),
   true).
Proof.
  intros Hs He Hle. apply (iter_collect_spec ce); [exact He|apply iter_new_inv; exact Hs|lia].
Qed.

(** * Parallel reads *)

Lemma data_disk a : 0 <= a ->
  l_disk (id2loc L (Data a)) = (a * ((a / (m * n)) mod (n - 1) + 1)) mod n.
Proof.
  intros Ha. pose proof (n_pos L HV) as Hn. pose proof (m_bound L HV) as Hm.
  pose proof (dc_pos L HV) as Hd.
  assert (Hv : valid_id L (Data a)) by exact Ha.
  pose proof (coord_of_valid L HV _ Hv) as Hc.
  rewrite <- (id_of_coord_of L HV _ Hv) at 1. rewrite id2loc_id_of by assumption. cbn [l_disk].
  unfold diskof. set (c := coord_of L (Data a)) in *.
  assert (E : co_s L c * m + co_b c = a mod datachunks L).
  { unfold c, co_s, coord_of; cbn [co_r co_z co_t co_b address].
    rewrite <- Z.div_mod by lia. rewrite <- (mod_dc_mod_m L HV).
    rewrite Z.mul_comm. symmetry. apply Z.div_mod. lia. }
  rewrite E.
  assert (Ey : co_y c = (a / (m * n)) mod (n - 1) + 1).
  { unfold co_y, c, coord_of; cbn [co_z address]. f_equal.
    rewrite Z.div_div by lia.
    replace (datachunks L) with ((m * n) * (n - 1)) by (rewrite dc_m; ring).
    rewrite Z.rem_mul_r by nia. rewrite (Z.mul_comm (m * n)), Z.div_add by nia.
    rewrite Z.div_small; [lia|]. apply Z.mod_pos_bound. nia. }
  rewrite Ey. apply cong_mod_eq; [lia|]. apply cong_mul; [|apply cong_refl].
  rewrite Z.mod_eq by lia. exists (- (m * (n - 1) * (a / datachunks L))).
  rewrite (dc_m L) at 1. ring.
Qed.

Lemma data_disk_inj a a' : 0 <= a -> 0 <= a' -> a / n = a' / n ->
  l_disk (id2loc L (Data a)) = l_disk (id2loc L (Data a')) -> a = a'.
Proof.
  intros Ha Ha' E. rewrite !data_disk by assumption. intros H.
  pose proof (n_pos L HV) as Hn. pose proof (m_bound L HV) as Hm.
  assert (Eq : a / (m * n) = a' / (m * n)).
  { rewrite (Z.mul_comm m n), <- !Z.div_div by lia. now rewrite E. }
  rewrite <- Eq in H. set (y := (a / (m * n)) mod (n - 1) + 1) in *.
  assert (Hy : 0 < y < n).
  { unfold y. pose proof (Z.mod_pos_bound (a / (m * n)) (n - 1) ltac:(lia)). lia. }
  destruct (yinv_spec L HV y Hy) as [Hyi _].
  assert (Hc : cong n (a * y) (a' * y)).
  { eapply cong_trans; [apply cong_sym, cong_mod; lia|]. rewrite H. apply cong_mod. lia. }
  assert (Hc2 : cong n a a').
  { assert (H1 : forall x, cong n (x * y * invmod y n) x).
    { intros x. rewrite <- Z.mul_assoc. rewrite <- (Z.mul_1_r x) at 2.
      apply cong_mul; [apply cong_refl|exact Hyi]. }
    eapply cong_trans; [apply cong_sym, H1|]. eapply cong_trans; [|apply H1].
    apply cong_mul; [exact Hc|apply cong_refl]. }
  apply cong_mod_eq in Hc2; [|lia].
  rewrite (Z.div_mod a n), (Z.div_mod a' n) by lia. congruence.
Qed.

Lemma parallel_read_bound a0 c d : 0 <= a0 -> 0 <= c ->
  count (fun a => l_disk (id2loc L (Data a)) =? d) (zrange a0 (a0 + c)) <= parallel_read_count L c.
Proof.
  intros Ha Hc. pose proof (n_pos L HV) as Hn.
  destruct (Z.eq_dec c 0) as [->|Hne].
  { rewrite zrange_empty by lia. rewrite count_nil. unfold parallel_read_count.
    assert (0 <= (0 + n - 1) / n) by (apply Z.div_pos; lia). lia. }
  etransitivity.
  { apply (count_inj_le _ _ (zrange (a0 / n) ((a0 + c - 1) / n + 1)) (fun a => a / n)).
    - apply NoDup_zrange.
    - intros x Hx _. apply in_zrange in Hx. apply in_zrange.
      assert (a0 / n <= x / n) by (apply Z.div_le_mono; lia).
      assert (x / n <= (a0 + c - 1) / n) by (apply Z.div_le_mono; lia). lia.
    - intros x x' Hx Hx' Hd Hd' E. apply in_zrange in Hx, Hx'.
      apply Z.eqb_eq in Hd, Hd'. apply data_disk_inj; try lia; congruence. }
  rewrite zrange_length. unfold parallel_read_count.
  assert ((a0 + c - 1) / n <= a0 / n + (c + n - 1) / n).
  { apply Z.lt_succ_r. apply Z.div_lt_upper_bound; [lia|].
    pose proof (Z.div_mod a0 n ltac:(lia)). pose proof (Z.mod_pos_bound a0 n ltac:(lia)).
    pose proof (Z.div_mod (c + n - 1) n ltac:(lia)).
    pose proof (Z.mod_pos_bound (c + n - 1) n ltac:(lia)). nia. }
  assert (0 <= (c + n - 1) / n) by (apply Z.div_pos; lia). lia.
Qed.

End Layout.
