(** Facts about RAID zones: rows of a stripe never go back, and what the zone
    limit search finds. *)
From Coq Require Import Znumtheory.
From Verif Require Import Common PrimeS_Model PrimeS_Proofs PrimeS_Proofs2 PrimeS_Props Zones_Model.

Lemma count_mono {A} (p q : A -> bool) l :
  (forall x, p x = true -> q x = true) -> count p l <= count q l.
Proof.
  intros H. induction l as [|x l IH]; [rewrite !count_nil; lia|]. rewrite !count_cons.
  specialize (H x). destruct (p x); [rewrite H by reflexivity; lia|destruct (q x); lia].
Qed.

Section Mono.
Context (L : layout) (HV : valid_layout L).
Notation n := (ln L).
Notation k := (lk L).
Notation m := (gm L).
Notation minv := (gm_inv L).

Lemma sigma_shift c b' : valid_coord L c ->
  sigma L (diskof L c) (co_y c) b' = (co_t c + (co_b c - b') * minv) mod n.
Proof.
  intros Hc. pose proof (n_pos L HV) as Hn. destruct (minv_spec L HV) as [Hmi _].
  pose proof (proj1 (disk_char L HV c (diskof L c) Hc (diskof_range L HV c)) eq_refl) as H.
  unfold sigma. apply cong_mod_eq; [lia|].
  destruct H as [q Hq]. destruct Hmi as [p Hp].
  exists (q * minv + co_t c * p).
  set (X := diskof L c * invmod (co_y c) n) in *.
  replace ((X - b') * minv - (co_t c + (co_b c - b') * minv))
    with ((X - (co_t c * m + co_b c)) * minv + co_t c * (m * minv - 1)) by ring.
  rewrite Hq, Hp. ring.
Qed.

Lemma cnt_next r z t b : valid_coord L (Co r z t b) -> valid_coord L (Co r z (t + 1) b) ->
  cnt L (diskof L (Co r z t b)) (z + 1) t <= cnt L (diskof L (Co r z (t + 1) b)) (z + 1) (t + 1).
Proof.
  intros H1 H2. unfold cnt. apply count_mono. intros b' Hlt.
  pose proof (sigma_shift _ b' H1) as E1. pose proof (sigma_shift _ b' H2) as E2.
  unfold co_y in E1, E2; cbn [co_t co_b co_z co_r] in E1, E2.
  rewrite E1 in Hlt. rewrite E2. clear E1 E2. apply Z.ltb_lt in Hlt. apply Z.ltb_lt.
  pose proof (n_pos L HV) as Hn.
  destruct H1 as (_ & _ & Ht & _). destruct H2 as (_ & _ & Ht' & _). cbn in Ht, Ht'.
  set (w := (b - b') * minv) in *.
  pose proof (Z.mod_pos_bound w n ltac:(lia)) as Hw.
  rewrite <- Z.add_mod_idemp_r in Hlt by lia. rewrite <- Z.add_mod_idemp_r by lia.
  set (w' := w mod n) in *.
  destruct (Z.lt_ge_cases (t + w') n) as [H|H].
  - rewrite Z.mod_small in Hlt by lia. lia.
  - replace (t + 1 + w') with (t + 1 + w' - n + 1 * n) by ring.
    rewrite Z.mod_add by lia. rewrite Z.mod_small by lia. lia.
Qed.

End Mono.

Section Stripes.
Context (L : layout) (HL : legal L).
Notation n := (ln L).
Notation k := (lk L).

(** Row of the chunk at position [b] of stripe [s]. *)
Definition row (s b : Z) : Z := l_offset (id2loc L (nth_chunk L (s * k + b))).

Lemma k_pos : 1 < k <= n.
Proof. apply HL. Qed.
Lemma zm_bound : 0 < zm L < k.
Proof. unfold zm. destruct HL as (_ & _ & H). lia. Qed.

Lemma nth_co s b : 0 <= s -> 0 <= b < k ->
  nth_chunk L (s * k + b) = id_of L (Co (s / (n * (n - 1))) ((s mod (n * (n - 1))) / n) ((s mod (n * (n - 1))) mod n) b)
  /\ valid_coord L (Co (s / (n * (n - 1))) ((s mod (n * (n - 1))) / n) ((s mod (n * (n - 1))) mod n) b).
Proof.
  intros Hs Hb. pose proof k_pos.
  assert (H0 : 0 <= s * k) by (apply Z.mul_nonneg_nonneg; lia).
  assert (E : coord_at L (s * k + b) = Co (s / (n * (n - 1))) ((s mod (n * (n - 1))) / n) ((s mod (n * (n - 1))) mod n) b).
  { unfold coord_at. rewrite Z.add_comm. rewrite Z.div_add, Z.mod_add by lia.
    rewrite (Z.div_small b k), (Z.mod_small b k) by lia. reflexivity. }
  rewrite <- E. split.
  - apply nth_chunk_id_of; [exact HL|]. lia.
  - apply coord_at_valid; [apply legal_valid, HL|lia].
Qed.

Lemma arith_rep K N r z c c' : 0 < K -> 0 <= z -> z + 1 = N - 1 -> 0 <= c < K -> 0 <= c' ->
  r * (K * (N - 1)) + K * z + c <= (r + 1) * (K * (N - 1)) + K * 0 + c'.
Proof. intros. assert (E : K * (N - 1) = K * z + K) by (rewrite <- H1; ring). rewrite E. lia. Qed.

Lemma row_step s b : 0 <= s -> 0 <= b < k -> row s b <= row (s + 1) b.
Proof.
  intros Hs Hb. unfold row. pose proof (proj1 (legal_valid L) HL) as HV.
  destruct (nth_co s b Hs Hb) as [-> Hc]. destruct (nth_co (s + 1) b ltac:(lia) Hb) as [-> Hc'].
  rewrite !id2loc_id_of by assumption. cbn [l_offset].
  pose proof (cnt_bounds L HV _ Hc) as Hw. pose proof (cnt_bounds L HV _ Hc') as Hw'.
  pose proof k_pos as Hk. set (N := n * (n - 1)) in *.
  assert (HN : 0 < N) by (clear - Hk; apply Z.mul_pos_pos; lia).
  pose proof (Z.div_mod s N ltac:(lia)) as Es. pose proof (Z.mod_pos_bound s N HN) as Bs.
  pose proof (Z.div_mod (s mod N) n ltac:(lia)) as Et. pose proof (Z.mod_pos_bound (s mod N) n ltac:(lia)) as Bt.
  pose proof Hc as (_ & Hz & _ & _). cbn [co_z] in Hz.
  pose proof Hc' as (_ & Hz' & _ & _). cbn [co_z] in Hz'.
  set (r := s / N) in *. set (z := s mod N / n) in *. set (t := (s mod N) mod n) in *.
  destruct (Z.eq_dec (t + 1) n) as [E1|E1]; [destruct (Z.eq_dec (z + 1) (n - 1)) as [E2|E2]|].
  - (* next repetition *)
    assert (s + 1 = (r + 1) * N) by (unfold N in *; nia).
    rewrite H in Hw', Hc' |- *. rewrite Z.div_mul, Z.mod_mul in * by lia.
    rewrite Z.div_0_l, Z.mod_0_l in * by lia. cbn [co_r co_z co_t] in *.
    unfold depth. apply arith_rep; lia.
  - (* next iteration *)
    assert (Em : (s + 1) mod N = (z + 1) * n).
    { replace (s + 1) with ((z + 1) * n + r * N) by nia. rewrite Z.mod_add by lia.
      apply Z.mod_small. unfold N; nia. }
    assert (Er : (s + 1) / N = r).
    { replace (s + 1) with ((z + 1) * n + r * N) by nia. rewrite Z.div_add by lia.
      rewrite Z.div_small by (unfold N; nia). lia. }
    rewrite Em, Er in *. rewrite Z.div_mul, Z.mod_mul in * by lia. cbn [co_r co_z co_t] in *. lia.
  - assert (Em : (s + 1) mod N = z * n + (t + 1)).
    { replace (s + 1) with (z * n + (t + 1) + r * N) by nia. rewrite Z.mod_add by lia.
      apply Z.mod_small. unfold N; nia. }
    assert (Er : (s + 1) / N = r).
    { replace (s + 1) with (z * n + (t + 1) + r * N) by nia. rewrite Z.div_add by lia.
      rewrite Z.div_small by (unfold N; nia). lia. }
    rewrite Em, Er in *.
    assert (Ed : (z * n + (t + 1)) / n = z)
      by (rewrite Z.add_comm, Z.div_add by lia; rewrite Z.div_small by lia; lia).
    assert (Eo : (z * n + (t + 1)) mod n = t + 1)
      by (rewrite Z.add_comm, Z.mod_add by lia; rewrite Z.mod_small by lia; lia).
    rewrite Ed, Eo in *.
    pose proof (cnt_next L HV r z t b Hc Hc') as H. unfold co_y in *; cbn [co_r co_z co_t] in *. lia.
Qed.

Lemma row_mono s s' b : 0 <= s <= s' -> 0 <= b < k -> row s b <= row s' b.
Proof.
  intros H Hb. replace s' with (s + Z.of_nat (Z.to_nat (s' - s))) by lia.
  induction (Z.to_nat (s' - s)) as [|i IH]; [replace (s + Z.of_nat 0) with s by lia; lia|].
  etransitivity; [exact IH|]. replace (s + Z.of_nat (S i)) with (s + Z.of_nat i + 1) by lia.
  apply row_step; lia.
Qed.

(** A chunk is the [b]th of its stripe. *)
Lemma chunk_split x : chunk_exists L x ->
  exists b, 0 <= b < k /\ 0 <= stripe_of L x /\ x = nth_chunk L (stripe_of L x * k + b) /\
            chunk_number L x = stripe_of L x * k + b /\ address x / zm L = stripe_of L x.
Proof.
  intros Hx. pose proof k_pos as Hk. pose proof zm_bound as Hm.
  destruct (proj2 (C04_numbering L HL) x Hx) as [H0 E].
  exists (chunk_number L x mod k). unfold stripe_of.
  pose proof (Z.mod_pos_bound (chunk_number L x) k ltac:(lia)).
  assert (E2 : chunk_number L x = chunk_number L x / k * k + chunk_number L x mod k)
    by (rewrite Z.mul_comm; apply Z.div_mod; lia).
  rewrite <- E2. repeat split; try lia; try congruence.
  - apply Z.div_pos; lia.
  - unfold chunk_number. fold (zm L). destruct x as [a|a i]; cbn [address].
    + cbn in Hx. pose proof (Z.mod_pos_bound a (zm L) ltac:(lia)).
      cbn zeta. fold (zm L). rewrite (Z.add_comm (a / zm L * k)), Z.div_add by lia.
      rewrite (Z.div_small (a mod zm L) k) by lia. lia.
    + cbn in Hx. destruct Hx as (_ & _ & Hi). unfold zm in *.
      replace (a / (k - lf L) * k + (k - lf L) + i) with (((k - lf L) + i) + a / (k - lf L) * k) by ring.
      rewrite Z.div_add by lia. rewrite (Z.div_small (k - lf L + i)) by lia. lia.
Qed.

Lemma nth_exists s b : 0 <= s -> 0 <= b < k ->
  chunk_exists L (nth_chunk L (s * k + b)) /\ stripe_of L (nth_chunk L (s * k + b)) = s.
Proof.
  intros Hs Hb. destruct (proj1 (C04_numbering L HL) (s * k + b) ltac:(nia)) as [H1 H2].
  split; [exact H1|]. unfold stripe_of. rewrite H2. rewrite Z.add_comm, Z.div_add by lia.
  rewrite Z.div_small by lia. lia.
Qed.

(** What [loc2id] returns for a row of a disk. *)
Lemma at_loc d w : 0 <= d < n -> 0 <= w ->
  exists x, loc2id L (Loc d w) = Some x /\ chunk_exists L x /\ id2loc L x = Loc d w.
Proof.
  intros Hd Hw. destruct (C03_layout_is_dense L d w HL Hd Hw) as (x & [Hx E] & _).
  exists x. split; [|auto]. rewrite <- E. apply C01_layout_invertible; assumption.
Qed.

Lemma row_nonneg s b : 0 <= s -> 0 <= b < k -> 0 <= row s b.
Proof.
  intros Hs Hb. unfold row. destruct (nth_co s b Hs Hb) as [-> Hc].
  apply (id2loc_valid L (proj1 (legal_valid L) HL)); exact Hc.
Qed.

(** On one disk, a smaller row belongs to an earlier stripe. *)
Lemma same_disk x y : chunk_exists L x -> chunk_exists L y ->
  l_disk (id2loc L x) = l_disk (id2loc L y) ->
  l_offset (id2loc L x) < l_offset (id2loc L y) -> stripe_of L x < stripe_of L y.
Proof.
  intros Hx Hy Hd Ho.
  assert (Hle : stripe_of L x <= stripe_of L y).
  { destruct (Z.le_gt_cases (stripe_of L x) (stripe_of L y)) as [H|H]; [exact H|exfalso].
    destruct (Z.lt_ge_cases (chunk_number L y) (chunk_number L x)) as [Hn|Hn].
    - pose proof (C54_rows_follow_chunk_order L y x HL Hy Hx Hn (eq_sym Hd)). lia.
    - assert (stripe_of L x <= stripe_of L y); [|lia].
      unfold stripe_of. pose proof k_pos. apply Z.div_le_mono; lia. }
  destruct (Z.eq_dec (stripe_of L x) (stripe_of L y)) as [E|E]; [exfalso|lia].
  apply (C02_stripe_on_distinct_disks L x y HL Hx Hy E); [|exact Hd]. intros ->. lia.
Qed.

(** The stripes of row [w]. *)
Lemma stripe_at_spec w d : 0 <= d < n -> 0 <= w ->
  exists s b, stripe_at L w d = Some s /\ 0 <= s /\ 0 <= b < k /\ id2loc L (nth_chunk L (s * k + b)) = Loc d w.
Proof.
  intros Hd Hw. destruct (at_loc d w Hd Hw) as (x & E & Hx & El).
  destruct (chunk_split x Hx) as (b & Hb & Hs & Ex & _ & Ea).
  exists (stripe_of L x), b. unfold stripe_at. rewrite E, Ea. rewrite <- Ex. auto.
Qed.

Lemma sequence_map {A B} (g : A -> option B) l :
  (forall x, In x l -> g x <> None) ->
  exists r, sequence (map g l) = Some r /\ length r = length l /\
            (forall y, In y r <-> exists x, In x l /\ g x = Some y).
Proof.
  induction l as [|a l IH]; intros H; cbn [map sequence].
  - exists []. repeat split; auto; [intros []|intros (x & [] & _)].
  - destruct (g a) as [y|] eqn:E; [|exfalso; apply (H a); [now left|exact E]].
    destruct IH as (r & Er & Hl & Hr); [intros x Hx; apply H; now right|].
    rewrite Er. exists (y :: r). split; [reflexivity|]. split; [cbn; lia|].
    intros y'. cbn [In]. rewrite Hr. split.
    + intros [<-|(x & Hx & Ex)]; [exists a; auto|exists x; auto].
    + intros (x & [<-|Hx] & Ex); [left; congruence|right; eauto].
Qed.

Lemma min_max_acc l : forall a b, fold_left (fun acc i => match acc with
                          | Some (a, b) => Some (Z.min a i, Z.max b i)
                          | None => Some (i, i)
                          end) l (Some (a, b)) =
   Some (fold_left Z.min l a, fold_left Z.max l b).
Proof. induction l as [|x l IH]; intros a b; cbn [fold_left]; [reflexivity|apply IH]. Qed.

Lemma fold_min_spec l : forall a, (fold_left Z.min l a = a \/ In (fold_left Z.min l a) l) /\
  fold_left Z.min l a <= a /\ forall x, In x l -> fold_left Z.min l a <= x.
Proof.
  induction l as [|y l IH]; intros a; cbn [fold_left In].
  - repeat split; auto; [lia|intros x []].
  - destruct (IH (Z.min a y)) as (H1 & H2 & H3). repeat split.
    + destruct H1 as [E|H1]; [rewrite E|right; right; exact H1].
      destruct (Z.min_spec a y) as [[_ ->]|[_ ->]]; auto.
    + lia.
    + intros x [<-|Hx]; [lia|auto].
Qed.

Lemma fold_max_spec l : forall a, (fold_left Z.max l a = a \/ In (fold_left Z.max l a) l) /\
  a <= fold_left Z.max l a /\ forall x, In x l -> x <= fold_left Z.max l a.
Proof.
  induction l as [|y l IH]; intros a; cbn [fold_left In].
  - repeat split; auto; [lia|intros x []].
  - destruct (IH (Z.max a y)) as (H1 & H2 & H3). repeat split.
    + destruct H1 as [E|H1]; [rewrite E|right; right; exact H1].
      destruct (Z.max_spec a y) as [[_ ->]|[_ ->]]; auto.
    + lia.
    + intros x [<-|Hx]; [lia|auto].
Qed.

Lemma min_max_spec l : l <> [] -> exists a b, min_max l = Some (a, b) /\ In a l /\ In b l /\
  forall x, In x l -> a <= x <= b.
Proof.
  destruct l as [|y l]; [congruence|]. intros _. unfold min_max. cbn [fold_left].
  rewrite min_max_acc. do 2 eexists. split; [reflexivity|].
  destruct (fold_min_spec l y) as (A1 & A2 & A3). destruct (fold_max_spec l y) as (B1 & B2 & B3).
  split; [|split].
  - destruct A1 as [->|A1]; [now left|now right].
  - destruct B1 as [->|B1]; [now left|now right].
  - intros x [<-|Hx]; [lia|]. specialize (A3 x Hx). specialize (B3 x Hx). lia.
Qed.

(** The search's idea of crossing, in terms of rows. *)
Lemma crosses_spec boundary high s : 0 <= s ->
  crosses L boundary high s = true <->
  exists b, 0 <= b < k /\ (if high then boundary < row s b else row s b < boundary).
Proof.
  intros Hs. pose proof k_pos as Hk. pose proof zm_bound as Hm.
  assert (Ea : forall s, 0 <= s -> Data (s * zm L) = nth_chunk L (s * k)).
  { intros s' Hs'. unfold nth_chunk. rewrite Z.div_mul, Z.mod_mul by lia.
    fold (zm L). destruct (Z.ltb_spec 0 (zm L)); [|lia]. f_equal. lia. }
  unfold crosses. rewrite (Ea s Hs), (Ea (s + 1)) by lia.
  destruct (proj1 (C04_numbering L HL) (s * k) ltac:(nia)) as [X1 N1].
  destruct (proj1 (C04_numbering L HL) ((s + 1) * k) ltac:(nia)) as [X2 N2].
  pose proof (C04_iterator_agrees L _ _ HL X1 X2) as H. rewrite N1, N2 in H.
  replace ((s + 1) * k - s * k) with k in H by ring. rewrite H by nia. cbn [fst]. clear H.
  rewrite existsb_exists. split.
  - intros (cl & Hin & Hc). apply in_map_iff in Hin. destruct Hin as (p & <- & Hp).
    apply in_zrange in Hp. cbn [snd] in Hc. exists (p - s * k). split; [nia|].
    unfold row. replace (s * k + (p - s * k)) with p by ring.
    destruct high; lia.
  - intros (b & Hb & Hc). exists (nth_chunk L (s * k + b), id2loc L (nth_chunk L (s * k + b))).
    split; [apply in_map_iff; exists (s * k + b); split; [reflexivity|apply in_zrange; nia]|].
    cbn [snd]. unfold row in Hc. destruct high; lia.
Qed.

(** The two searches, for a crossing test that is monotone. *)
Lemma low_search (c : Z -> bool) mn mx :
  mn <= mx -> c mx = false -> (forall s s', mn <= s <= s' -> c s = false -> c s' = false) ->
  exists s, fold_left (fun inner stripe => if c stripe then None
              else match inner with None => Some stripe | Some s => Some s end)
              (zrange mn (mx + 1)) None = Some s /\ mn <= s <= mx /\ c s = false /\
            forall s', mn <= s' < s -> c s' = true.
Proof.
  intros Hle. replace mx with (mn + Z.of_nat (Z.to_nat (mx - mn))) by lia.
  generalize (Z.to_nat (mx - mn)) as i. clear mx Hle.
  induction i as [|i IH]; intros Hmx Hmono.
  - replace (mn + Z.of_nat 0) with mn in * by lia. rewrite zrange_cons by lia.
    rewrite zrange_empty by lia. cbn [fold_left]. rewrite Hmx. exists mn. repeat split; auto; lia.
  - replace (mn + Z.of_nat (S i)) with (mn + Z.of_nat i + 1) in * by lia.
    rewrite (zrange_split mn (mn + Z.of_nat i + 1)) by lia.
    rewrite fold_left_app. rewrite (zrange_cons (mn + Z.of_nat i + 1)) by lia.
    rewrite zrange_empty by lia. cbn [fold_left]. rewrite Hmx.
    destruct (c (mn + Z.of_nat i)) eqn:E.
    + assert (En : fold_left (fun inner stripe => if c stripe then None
              else match inner with None => Some stripe | Some s => Some s end)
              (zrange mn (mn + Z.of_nat i + 1)) None = None).
      { rewrite zrange_snoc by lia. replace (mn + Z.of_nat i + 1 - 1) with (mn + Z.of_nat i) by lia.
        rewrite fold_left_app. cbn [fold_left]. now rewrite E. }
      rewrite En. eexists. split; [reflexivity|]. repeat split; try lia; auto.
      intros s' Hs'. destruct (c s') eqn:E'; [reflexivity|].
      rewrite (Hmono s' (mn + Z.of_nat i)) in E; [congruence|lia|exact E'].
    + destruct (IH eq_refl Hmono) as (s & -> & H1 & H2 & H3). exists s. repeat split; auto; lia.
Qed.

Lemma high_search (c : Z -> bool) mn mx :
  mn <= mx -> c mn = false -> (forall s s', mn <= s <= s' -> c s' = false -> c s = false) ->
  exists s, fold_left (fun inner stripe => if c stripe then inner
              else match inner with None => Some stripe | Some _ => Some stripe end)
              (zrange mn (mx + 1)) None = Some s /\ mn <= s <= mx /\ c s = false /\
            forall s', s < s' <= mx -> c s' = true.
Proof.
  intros Hle. replace mx with (mn + Z.of_nat (Z.to_nat (mx - mn))) by lia.
  generalize (Z.to_nat (mx - mn)) as i. clear mx Hle.
  induction i as [|i IH]; intros Hmn Hmono.
  - replace (mn + Z.of_nat 0) with mn in * by lia. rewrite zrange_cons by lia.
    rewrite zrange_empty by lia. cbn [fold_left]. rewrite Hmn. exists mn. repeat split; auto; lia.
  - replace (mn + Z.of_nat (S i)) with (mn + Z.of_nat i + 1) in * by lia.
    rewrite (zrange_split mn (mn + Z.of_nat i + 1)) by lia.
    rewrite fold_left_app. rewrite (zrange_cons (mn + Z.of_nat i + 1)) by lia.
    rewrite zrange_empty by lia. cbn [fold_left].
    destruct (IH Hmn Hmono) as (s & -> & H1 & H2 & H3).
    destruct (c (mn + Z.of_nat i + 1)) eqn:E.
    + exists s. repeat split; auto; try lia.
      intros s' Hs'. destruct (Z.eq_dec s' (mn + Z.of_nat i + 1)) as [->|]; [exact E|apply H3; lia].
    + eexists. split; [reflexivity|]. repeat split; auto; lia.
Qed.

Lemma pick_disk s : 0 <= s -> exists d w, 0 <= d < n /\ 0 <= w /\ id2loc L (nth_chunk L (s * k + 0)) = Loc d w.
Proof.
  intros Hs. pose proof k_pos. destruct (nth_co s 0 Hs ltac:(lia)) as [-> Hc].
  pose proof (id2loc_valid L (proj1 (legal_valid L) HL) _ Hc) as [H1 H2].
  destruct (id2loc L _) as [d w]. cbn in H1, H2. eauto.
Qed.

(** Both ends of the range of stripes that touch row [w]. *)
Lemma row_stripes w : 0 <= w ->
  exists mn mx,
    match sequence (map (stripe_at L w) (zrange 0 n)) with
    | Some ss => min_max ss | None => None end = Some (mn, mx) /\ 0 <= mn <= mx /\
    (forall x, chunk_exists L x -> l_offset (id2loc L x) = w -> mn <= stripe_of L x <= mx) /\
    (exists x, chunk_exists L x /\ l_offset (id2loc L x) = w /\ stripe_of L x = mn) /\
    (exists x, chunk_exists L x /\ l_offset (id2loc L x) = w /\ stripe_of L x = mx).
Proof.
  intros Hw. pose proof k_pos as Hk.
  destruct (sequence_map (stripe_at L w) (zrange 0 n)) as (ss & -> & Hlen & Hss).
  { intros d Hd. apply in_zrange in Hd. destruct (stripe_at_spec w d Hd Hw) as (s & b & -> & _). congruence. }
  destruct (min_max_spec ss) as (mn & mx & -> & Hmn & Hmx & Hall).
  { intros ->. rewrite zrange_length in Hlen. cbn in Hlen. lia. }
  assert (Hin : forall s, In s ss -> exists x, chunk_exists L x /\ l_offset (id2loc L x) = w /\ stripe_of L x = s /\ 0 <= s).
  { intros s Hs. apply Hss in Hs. destruct Hs as (d & Hd & E). apply in_zrange in Hd.
    destruct (stripe_at_spec w d Hd Hw) as (s' & b & E' & H0 & Hb & El). rewrite E' in E.
    injection E as <-. destruct (nth_exists s' b H0 Hb) as [X1 X2].
    exists (nth_chunk L (s' * k + b)). rewrite El. cbn. auto. }
  exists mn, mx. split; [reflexivity|].
  destruct (Hin mn Hmn) as (x1 & X1 & X2 & X3 & X4). destruct (Hin mx Hmx) as (x2 & Y1 & Y2 & Y3 & Y4).
  pose proof (Hall mx Hmx). split; [lia|]. split; [|split; eauto].
  intros x Hx Ho. apply Hall. apply Hss.
  exists (l_disk (id2loc L x)).
  destruct (chunk_split x Hx) as (b & Hb & Hs & Ex & _ & Ea).
  destruct (nth_co (stripe_of L x) b Hs Hb) as [Ec Hc]. rewrite <- Ex in Ec.
  pose proof (id2loc_valid L (proj1 (legal_valid L) HL) _ Hc) as [Hd _]. rewrite <- Ec in Hd.
  split; [apply in_zrange; exact Hd|].
  unfold stripe_at. rewrite <- Ho. replace (Loc (l_disk (id2loc L x)) (l_offset (id2loc L x))) with (id2loc L x)
    by (destruct (id2loc L x); reflexivity).
  rewrite C01_layout_invertible by assumption. now rewrite Ea.
Qed.

(** The row-[w] chunk of the disk that holds chunk [x]. *)
Lemma on_disk_of x w : chunk_exists L x -> 0 <= w ->
  exists y, chunk_exists L y /\ l_disk (id2loc L y) = l_disk (id2loc L x) /\ l_offset (id2loc L y) = w.
Proof.
  intros Hx Hw. destruct (chunk_split x Hx) as (b & Hb & Hs & Ex & _ & _).
  destruct (nth_co (stripe_of L x) b Hs Hb) as [Ec Hc]. rewrite <- Ex in Ec.
  pose proof (id2loc_valid L (proj1 (legal_valid L) HL) _ Hc) as [Hd _]. rewrite <- Ec in Hd.
  destruct (at_loc _ w Hd Hw) as (y & _ & Hy & E). exists y. rewrite E. auto.
Qed.

Definition all_from (B s : Z) : Prop := forall b, 0 <= b < k -> B <= row s b.
Definition all_upto (E s : Z) : Prop := forall b, 0 <= b < k -> row s b <= E.

Lemma not_crosses_low B s : 0 <= s -> crosses L B false s = false <-> all_from B s.
Proof.
  intros Hs. pose proof (crosses_spec B false s Hs) as H. unfold all_from. split.
  - intros Hc b Hb. destruct (Z.le_gt_cases B (row s b)) as [|Hlt]; [assumption|exfalso].
    assert (crosses L B false s = true) by (apply H; eauto). congruence.
  - intros Ha. destruct (crosses L B false s) eqn:E; [exfalso|reflexivity].
    destruct (proj1 H eq_refl) as (b & Hb & Hlt). specialize (Ha b Hb). lia.
Qed.
Lemma not_crosses_high E s : 0 <= s -> crosses L E true s = false <-> all_upto E s.
Proof.
  intros Hs. pose proof (crosses_spec E true s Hs) as H. unfold all_upto. split.
  - intros Hc b Hb. destruct (Z.le_gt_cases (row s b) E) as [|Hlt]; [assumption|exfalso].
    assert (crosses L E true s = true) by (apply H; eauto). congruence.
  - intros Ha. destruct (crosses L E true s) eqn:E'; [exfalso|reflexivity].
    destruct (proj1 H eq_refl) as (b & Hb & Hlt). specialize (Ha b Hb). lia.
Qed.

Lemma endpoint_low cs B : 0 <= B ->
  exists lo, endpoint_lba L cs B false = Some (lo * zm L * cs) /\ 0 <= lo /\
    forall s, 0 <= s -> (lo <= s <-> all_from B s).
Proof.
  intros HB. pose proof k_pos as Hk.
  destruct (row_stripes B HB) as (mn & mx & E & Hle & Hall & (x1 & X1 & X2 & X3) & (x2 & Y1 & Y2 & Y3)).
  unfold endpoint_lba.
  destruct (sequence (map (stripe_at L B) (zrange 0 n))) as [ss|]; [|congruence]. rewrite E.
  assert (Hmono : forall s s', 0 <= s <= s' -> all_from B s -> all_from B s').
  { intros s s' Hs Ha b Hb. specialize (Ha b Hb). pose proof (row_mono s s' b Hs Hb). lia. }
  destruct (low_search (crosses L B false) mn mx) as (lo & Ef & H1 & H2 & H3).
  - lia.
  - apply not_crosses_low; [lia|]. intros b Hb.
    destruct (Z.le_gt_cases B (row mx b)) as [|Hlt]; [assumption|exfalso].
    destruct (nth_exists mx b ltac:(lia) Hb) as [Hx Hs].
    destruct (on_disk_of _ B Hx HB) as (y & Hy & Hd & Ho).
    pose proof (same_disk _ y Hx Hy (eq_sym Hd) ltac:(unfold row in Hlt; lia)).
    pose proof (Hall y Hy Ho). lia.
  - intros s s' Hs Hc. apply not_crosses_low in Hc; [|lia]. apply not_crosses_low; [lia|].
    apply (Hmono s); [lia|exact Hc].
  - unfold stripe_step. cbn match. rewrite Ef. exists lo. split; [reflexivity|]. split; [lia|].
    intros s Hs. apply not_crosses_low in H2; [|lia]. split; [intros H; apply (Hmono lo); [lia|exact H2]|].
    intros Ha. destruct (Z.le_gt_cases lo s) as [|Hlt]; [assumption|exfalso].
    destruct (Z.le_gt_cases mn s) as [Hm|Hm].
    + specialize (H3 s ltac:(lia)). apply not_crosses_low in Ha; [|lia]. congruence.
    + specialize (Ha 0 ltac:(lia)). destruct (nth_exists s 0 Hs ltac:(lia)) as [Hx Hst].
      destruct (on_disk_of _ B Hx HB) as (y & Hy & Hd & Ho). pose proof (Hall y Hy Ho) as Hmn.
      unfold row in Ha. destruct (Z.eq_dec (l_offset (id2loc L (nth_chunk L (s * k + 0)))) B) as [Eo|Eo].
      * pose proof (Hall _ Hx Eo). lia.
      * pose proof (same_disk y _ Hy Hx Hd ltac:(lia)). lia.
Qed.

Lemma endpoint_high cs E : 0 <= E ->
  exists hi, endpoint_lba L cs E true = Some (hi * zm L * cs) /\ 0 < hi /\
    forall s, 0 <= s -> (s < hi <-> all_upto E s).
Proof.
  intros HE. pose proof k_pos as Hk.
  destruct (row_stripes E HE) as (mn & mx & Em & Hle & Hall & (x1 & X1 & X2 & X3) & (x2 & Y1 & Y2 & Y3)).
  unfold endpoint_lba.
  destruct (sequence (map (stripe_at L E) (zrange 0 n))) as [ss|]; [|congruence]. rewrite Em.
  assert (Hmono : forall s s', 0 <= s <= s' -> all_upto E s' -> all_upto E s).
  { intros s s' Hs Ha b Hb. specialize (Ha b Hb). pose proof (row_mono s s' b Hs Hb). lia. }
  destruct (high_search (crosses L E true) mn mx) as (hi & Ef & H1 & H2 & H3).
  - lia.
  - apply not_crosses_high; [lia|]. intros b Hb.
    destruct (Z.le_gt_cases (row mn b) E) as [|Hlt]; [assumption|exfalso].
    destruct (nth_exists mn b ltac:(lia) Hb) as [Hx Hs].
    destruct (on_disk_of _ E Hx HE) as (y & Hy & Hd & Ho).
    pose proof (same_disk y _ Hy Hx Hd ltac:(unfold row in Hlt; lia)).
    pose proof (Hall y Hy Ho). lia.
  - intros s s' Hs Hc. apply not_crosses_high in Hc; [|lia]. apply not_crosses_high; [lia|].
    apply (Hmono s s'); [lia|exact Hc].
  - unfold stripe_step. cbn match. rewrite Ef. exists (hi + 1). split; [reflexivity|]. split; [lia|].
    intros s Hs. apply not_crosses_high in H2; [|lia]. split; [intros H; apply (Hmono s hi); [lia|exact H2]|].
    intros Ha. destruct (Z.lt_ge_cases s (hi + 1)) as [|Hlt]; [assumption|exfalso].
    destruct (Z.le_gt_cases s mx) as [Hm|Hm].
    + specialize (H3 s ltac:(lia)). apply not_crosses_high in Ha; [|lia]. congruence.
    + specialize (Ha 0 ltac:(lia)). destruct (nth_exists s 0 Hs ltac:(lia)) as [Hx Hst].
      destruct (on_disk_of _ E Hx HE) as (y & Hy & Hd & Ho). pose proof (Hall y Hy Ho) as Hmn.
      unfold row in Ha. destruct (Z.eq_dec (l_offset (id2loc L (nth_chunk L (s * k + 0)))) E) as [Eo|Eo].
      * pose proof (Hall _ Hx Eo). lia.
      * pose proof (same_disk _ y Hx Hy (eq_sym Hd) ltac:(lia)). lia.
Qed.

(** The limits in terms of stripes. *)
Lemma limits_spec cs dl z b e :
  0 < cs -> dl z = (b, e) -> 0 <= b -> cs <= e ->
  exists lo hi, raid_zone_limits L cs dl z = Some (lo * zm L * cs, hi * zm L * cs) /\ 0 <= lo /\ 0 < hi /\
    (forall s, 0 <= s -> (lo <= s <-> forall x, chunk_exists L x -> stripe_of L x = s -> b <= l_offset (id2loc L x) * cs)) /\
    (forall s, 0 <= s -> (s < hi <-> forall x, chunk_exists L x -> stripe_of L x = s -> (l_offset (id2loc L x) + 1) * cs <= e)).
Proof.
  intros Hcs Edl Hb He. unfold raid_zone_limits. rewrite Edl.
  assert (Hd : 1 <= e / cs) by (apply Z.div_le_lower_bound; lia).
  destruct (Z.eqb_spec (e / cs) 0) as [|_]; [lia|].
  assert (HB : 0 <= div_ceil b cs /\ forall w, div_ceil b cs <= w <-> b <= w * cs).
  { unfold div_ceil. pose proof (Z.div_mod b cs ltac:(lia)). pose proof (Z.mod_pos_bound b cs Hcs).
    assert (0 <= b / cs) by (apply Z.div_pos; lia).
    destruct (Z.ltb_spec 0 (b mod cs)); split; try lia; intros w; split; intros; nia. }
  destruct HB as [HB HBw].
  assert (HE : forall w, w <= e / cs - 1 <-> (w + 1) * cs <= e).
  { intros w. pose proof (Z.div_mod e cs ltac:(lia)). pose proof (Z.mod_pos_bound e cs Hcs). split; nia. }
  destruct (endpoint_low cs _ HB) as (lo & -> & Hlo & Slo).
  destruct (endpoint_high cs (e / cs - 1) ltac:(lia)) as (hi & -> & Hhi & Shi).
  exists lo, hi. split; [reflexivity|]. split; [exact Hlo|]. split; [exact Hhi|]. split.
  - intros s Hs. rewrite Slo by exact Hs. unfold all_from. split.
    + intros H x Hx Ex. destruct (chunk_split x Hx) as (j & Hj & _ & Exx & _). rewrite Ex in Exx.
      apply HBw. rewrite Exx. apply H. exact Hj.
    + intros H j Hj. apply HBw. destruct (nth_exists s j Hs Hj). apply H; assumption.
  - intros s Hs. rewrite Shi by exact Hs. unfold all_upto. split.
    + intros H x Hx Ex. destruct (chunk_split x Hx) as (j & Hj & _ & Exx & _). rewrite Ex in Exx.
      apply HE. rewrite Exx. apply H. exact Hj.
    + intros H j Hj. apply HE. destruct (nth_exists s j Hs Hj). apply H; assumption.
Qed.

End Stripes.
