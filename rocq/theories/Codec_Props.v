(** C06: any f lost columns of a stripe can be reconstructed exactly. *)
From Verif Require Import Common SG_Model SG_Props Codec_Model Codec_Proofs Codec_GF.
From Coq Require Import Permutation.

(** * Specification *)
(** [k] columns of [len] bytes *)
Definition columns (k len : nat) (cols : list (list Z)) : Prop :=
  length cols = k /\ Forall (fun c => length c = len /\ Forall (fun b => 0 <= b < 256) c) cols.
(** a stripe as it is on disk: the data columns and then the parity columns *)
Definition stripe (m f len : nat) (data : list (list Z)) : list (list Z) := data ++ encode m f len data.
(** at most [f] of the [m] columns are lost *)
Definition at_most_lost (m f : nat) (lost : nat -> bool) : Prop := (length (filter lost (seq 0 m)) <= f)%nat.
(** the [k] lowest columns that are left, in order; Codec::decode demands these *)
Definition survivors (m k : nat) (lost : nat -> bool) (cols : list (list Z)) : list (list Z) :=
  map (fun r => nth r cols []) (firstn k (filter (fun r => negb (lost r)) (seq 0 m))).
Definition lost_data (k : nat) (lost : nat -> bool) (data : list (list Z)) : list (list Z) := map (fun r => nth r data []) (filter lost (seq 0 k)).

(** * Proofs *)
Notation mat_vec M x := (map (fun r => dot g0 gadd gmul r x) M).
Definition slice (p : nat) (data : list (list Z)) : list gf := map (fun c => of_Z (nth p c 0)) data.

Lemma slice_cols p data : map (fun c => nth p c g0) (cols_gf data) = slice p data.
Proof. unfold cols_gf, slice. rewrite map_map. apply map_ext. intros c. change g0 with (of_Z 0). apply (map_nth of_Z). Qed.

Lemma skipn_enc m f : (f <= m)%nat -> skipn (m - f) (enc_matrix m f) = map (parity_row (m - f) f) (seq (m - f) f).
Proof. intros H. unfold enc_matrix. rewrite skipn_app, ident_length, Nat.sub_diag. rewrite skipn_all2 by (rewrite ident_length; lia). reflexivity. Qed.

Lemma encode_length m f len data : (f <= m)%nat -> length (encode m f len data) = f.
Proof. intros H. unfold encode, cols_Z, ec_encode_data. rewrite skipn_enc by exact H. now rewrite !map_length, seq_length. Qed.

Lemma encode_nth m f len data i p : (f <= m)%nat -> (i < f)%nat -> (p < len)%nat ->
  nth p (nth i (encode m f len data) []) 0 = gz (dot g0 gadd gmul (parity_row (m - f) f (m - f + i)) (slice p data)).
Proof.
  intros Hf Hi Hp. unfold encode, cols_Z, ec_encode_data. rewrite skipn_enc by exact Hf. rewrite map_map, map_map.
  rewrite (nth_indep _ [] ((fun x => map gz (map (fun p => dot g0 gadd gmul (parity_row (m - f) f x) (map (fun c => nth p c g0) (cols_gf data))) (seq 0 len))) O)) by (rewrite map_length, seq_length; lia).
  rewrite (map_nth (fun x => map gz (map (fun p => dot g0 gadd gmul (parity_row (m - f) f x) (map (fun c => nth p c g0) (cols_gf data))) (seq 0 len)))). rewrite seq_nth by lia. rewrite map_map. rewrite nth_map_seq by lia. now rewrite slice_cols.
Qed.

Lemma encode_col_length m f len data i : (f <= m)%nat -> (i < f)%nat -> length (nth i (encode m f len data) []) = len.
Proof.
  intros Hf Hi. assert (X : Forall (fun c => length c = len) (encode m f len data)). { unfold encode, cols_Z, ec_encode_data. rewrite map_map. apply Forall_map. apply Forall_forall. intros r _. now rewrite !map_length, seq_length. }
  apply (proj1 (Forall_forall _ _) X). apply nth_In. rewrite encode_length by exact Hf. exact Hi.
Qed.

Lemma slice_data k len data r p : columns k len data -> (r < k)%nat -> gz (nth r (slice p data) g0) = nth p (nth r data []) 0.
Proof.
  intros [L H] Hr. unfold slice. rewrite (nth_indep _ g0 ((fun c => of_Z (nth p c 0)) [])) by (rewrite map_length; lia). rewrite (map_nth (fun c => of_Z (nth p c 0))).
  apply of_Z_byte. pose proof (proj1 (Forall_forall _ _) H (nth r data []) ltac:(apply nth_In; lia)) as [_ B]. destruct (Nat.lt_ge_cases p (length (nth r data []))) as [Hp|Hp].
  - pose proof (proj1 (Forall_forall _ _) B (nth p (nth r data []) 0) ltac:(now apply nth_In)) as X. cbn beta in X. unfold byteb. lia.
  - rewrite nth_overflow by exact Hp. reflexivity.
Qed.

(** every column of a stripe, byte by byte, is its row of the matrix times the data *)
Lemma stripe_nth m f len data r p : (f <= m)%nat -> columns (m - f) len data -> (r < m)%nat -> (p < len)%nat ->
  of_Z (nth p (nth r (stripe m f len data) []) 0) = dot g0 gadd gmul (nth r (enc_matrix m f) []) (slice p data).
Proof.
  intros Hf [L C] Hr Hp. unfold stripe. assert (Ls : length (slice p data) = (m - f)%nat) by (unfold slice; now rewrite map_length). destruct (Nat.lt_ge_cases r (m - f)) as [H|H].
  - rewrite app_nth1 by lia. rewrite enc_data_row by exact H. rewrite (dot_unit g0 g1 gadd gmul gadd _ _ _ gf_field gnz gnz_ok) by auto.
    rewrite <- (slice_data (m - f) len data r p (conj L C) H). apply of_gz.
  - rewrite app_nth2 by lia. rewrite L. rewrite encode_nth by lia. rewrite of_gz. rewrite enc_parity_row by lia. do 2 f_equal. lia.
Qed.

Lemma survivors_spec m f lost : (f <= m)%nat -> at_most_lost m f lost ->
  exists hs, healthy lost (seq 0 m) (m - f) = Some hs /\ hs = firstn (m - f) (filter (fun r => negb (lost r)) (seq 0 m)) /\ length hs = (m - f)%nat /\ NoDup hs /\ Forall (fun r => (r < m)%nat) hs.
Proof.
  intros Hf H. unfold at_most_lost in H. pose proof (filter_split lost (seq 0 m)) as S1. rewrite seq_length in S1.
  destruct (healthy_spec lost (seq 0 m) (m - f) (seq_NoDup _ _) ltac:(lia)) as (hs & E & L & N & I & _). exists hs. split; [exact E|]. split; [now apply healthy_lowest|]. split; [exact L|]. split; [exact N|].
  apply Forall_forall. intros r Ir. apply I in Ir. apply in_seq in Ir. lia.
Qed.

(** The codec rebuilds the lost data columns exactly, whichever (at most f) columns are lost. *)
Theorem C06_decode_rebuilds_lost_columns m f len data lost :
  (1 <= f)%nat -> (f < m)%nat -> (m <= 256)%nat -> columns (m - f) len data -> at_most_lost m f lost -> filter lost (seq 0 (m - f)) <> [] ->
  decode m f len (survivors m (m - f) lost (stripe m f len data)) (length (filter lost (seq 0 (m - f)))) lost = Some (lost_data (m - f) lost data).
Proof.
  intros F1 Fm M256 C A NE. unfold decode. set (k := (m - f)%nat) in *. destruct (survivors_spec m f lost ltac:(lia) A) as (hs & Eh & Ef & Lh & Nh & Rh). fold k in Eh, Ef, Lh.
  assert (Ls : length (survivors m k lost (stripe m f len data)) = k) by (unfold survivors; rewrite map_length, <- Ef; exact Lh).
  destruct (Nat.eqb_spec (length (filter lost (seq 0 k))) 0) as [Z|_]; [apply length_zero_iff_nil in Z; contradiction|]. rewrite Nat.eqb_refl, Ls, Nat.eqb_refl. cbn [orb negb].
  unfold decode_rows. rewrite Eh.
  destruct (invert_ok g0 g1 gadd gmul gadd _ _ _ gf_field gnz gnz_ok (map (fun r => nth r (enc_matrix m f) []) hs) k) as (B & EB & LB & HB).
  - now rewrite map_length.
  - apply Forall_map. apply Forall_forall. intros r Ir. apply enc_row_length; [|lia]. exact (proj1 (Forall_forall _ _) Rh r Ir).
  - now apply rows_injective.
  - rewrite EB. f_equal. unfold cols_Z, ec_encode_data, lost_data. rewrite !map_map. apply map_ext_in. intros r Ir. apply filter_In in Ir. destruct Ir as [Ir _]. apply in_seq in Ir.
    assert (Ld : length (nth r data []) = len). { destruct C as [L C]. apply (proj1 (Forall_forall _ _) C). apply nth_In. lia. }
    rewrite map_map. apply (nth_ext _ _ 0 0); [rewrite map_length, seq_length; now symmetry|]. intros p Hp. rewrite map_length, seq_length in Hp. rewrite nth_map_seq by exact Hp.
    assert (Es : map (fun c => nth p c g0) (cols_gf (survivors m k lost (stripe m f len data))) = mat_vec (map (fun r => nth r (enc_matrix m f) []) hs) (slice p data)).
    { rewrite slice_cols. unfold slice at 1, survivors. rewrite <- Ef, !map_map. apply map_ext_in. intros q Iq. apply stripe_nth; auto; [lia|]. exact (proj1 (Forall_forall _ _) Rh q Iq). }
    rewrite Es. rewrite HB; [|lia|unfold slice; rewrite map_length; apply C]. apply (slice_data k len); [exact C|lia].
Qed.

(** Two stripes that agree on the columns left agree on all columns. *)
Theorem C06_lost_columns_are_determined m f len d1 d2 lost :
  (1 <= f)%nat -> (f < m)%nat -> (m <= 256)%nat -> columns (m - f) len d1 -> columns (m - f) len d2 -> at_most_lost m f lost ->
  (forall r, (r < m)%nat -> lost r = false -> nth r (stripe m f len d1) [] = nth r (stripe m f len d2) []) ->
  stripe m f len d1 = stripe m f len d2.
Proof.
  intros F1 Fm M256 C1 C2 A H.
  assert (E : d1 = d2); [|now rewrite E].
  destruct C1 as [L1 C1], C2 as [L2 C2]. apply (nth_ext _ _ [] []); [congruence|]. intros r Hr. rewrite L1 in Hr. destruct (lost r) eqn:Lr.
  - assert (NE : filter lost (seq 0 (m - f)) <> []). { intros X. assert (I : In r (filter lost (seq 0 (m - f)))) by (apply filter_In; rewrite in_seq; split; [lia|exact Lr]). rewrite X in I. exact I. }
    pose proof (C06_decode_rebuilds_lost_columns m f len d1 lost F1 Fm M256 (conj L1 C1) A NE) as E1. pose proof (C06_decode_rebuilds_lost_columns m f len d2 lost F1 Fm M256 (conj L2 C2) A NE) as E2.
    assert (S : survivors m (m - f) lost (stripe m f len d1) = survivors m (m - f) lost (stripe m f len d2)).
    { unfold survivors. apply map_ext_in. intros q Iq. assert (Iq' : In q (filter (fun r => negb (lost r)) (seq 0 m))) by (rewrite <- (firstn_skipn (m - f)); apply in_or_app; now left).
      apply filter_In in Iq'. rewrite in_seq, negb_true_iff in Iq'. apply H; [lia|apply Iq']. }
    rewrite S, E2 in E1. injection E1 as E1. unfold lost_data in E1. symmetry. 
    assert (G : forall l, map (fun r => nth r d2 []) l = map (fun r => nth r d1 []) l -> In r l -> nth r d2 [] = nth r d1 []).
    { induction l as [|a l IH]; intros Em I; [contradiction|]. cbn [map] in Em. injection Em as Ea Em. destruct I as [->|I]; auto. }
    apply (G _ E1). apply filter_In. rewrite in_seq. split; [lia|exact Lr].
  - specialize (H r ltac:(lia) Lr). unfold stripe in H. rewrite !app_nth1 in H by lia. exact H.
Qed.

(** With one parity column, the parity is the exclusive or of the data. *)
Theorem C06_single_parity_is_xor m len data : (2 <= m)%nat -> columns (m - 1) len data ->
  encode m 1 len data = [map (fun p => fold_right Z.lxor 0 (map (fun c => nth p c 0) data)) (seq 0 len)].
Proof.
  intros Hm [L C]. unfold encode, cols_Z, ec_encode_data. rewrite skipn_enc by lia. cbn [seq map]. f_equal. rewrite map_map. apply map_ext. intros p. rewrite slice_cols. unfold parity_row. cbn [Nat.eqb]. rewrite <- L.
  assert (C' : Forall (fun c => Forall (fun b => 0 <= b < 256) c) data) by (eapply Forall_impl; [|exact C]; cbn; tauto). clear - C'. unfold slice. induction C' as [|c data B C IH]; [reflexivity|]. cbn [length repeat map dot fold_right]. rewrite gz_add, IH. f_equal.
  rewrite gz_mul, gz_1. assert (X : byteb (nth p c 0) = true). { destruct (Nat.lt_ge_cases p (length c)) as [H|H]; [|now rewrite nth_overflow by exact H]. pose proof (proj1 (Forall_forall _ _) B (nth p c 0) ltac:(now apply nth_In)) as X. cbn beta in X. unfold byteb. lia. }
  rewrite of_Z_byte by exact X. now apply mulZ_1.
Qed.

(** * Encoding in pieces *)
Lemma zip_app_encode m f a b refs rests : (f <= m)%nat -> Forall2 (fun (r : list Z) _ => length r = a) refs rests -> length refs = length rests ->
  zip_app (encode m f a refs) (encode m f b rests) = encode m f (a + b) (map (fun rr : list Z * list Z => fst rr ++ snd rr) (combine refs rests)).
Proof.
  intros Hf Fa Lr. unfold encode, cols_Z, ec_encode_data. rewrite !map_map. induction (skipn (m - f) (enc_matrix m f)) as [|r rows IH]; [reflexivity|]. cbn [map zip_app]. rewrite IH. f_equal.
  rewrite seq_app, !map_app. rewrite !map_map. f_equal.
  - apply map_ext_in. intros p Ip. apply in_seq in Ip. rewrite !slice_cols. do 2 f_equal. unfold slice. rewrite map_map. clear - Fa Ip. induction Fa as [|x y xs ys E F IH]; [reflexivity|]. cbn [combine map fst snd]. rewrite IH. rewrite app_nth1 by lia. reflexivity.
  - cbn [Nat.add]. apply (nth_ext _ _ 0 0); [now rewrite !map_length, !seq_length|]. intros q Hq. rewrite map_length, seq_length in Hq. rewrite nth_map_seq by exact Hq.
    rewrite (nth_indep _ 0 ((fun p => gz (dot g0 gadd gmul r (map (fun c => nth p c g0) (cols_gf (map (fun rr : list Z * list Z => fst rr ++ snd rr) (combine refs rests)))))) O)) by (rewrite map_length, seq_length; exact Hq).
    rewrite (map_nth (fun p => gz (dot g0 gadd gmul r (map (fun c => nth p c g0) (cols_gf (map (fun rr : list Z * list Z => fst rr ++ snd rr) (combine refs rests))))))). rewrite seq_nth by exact Hq. rewrite !slice_cols. do 2 f_equal. unfold slice. rewrite map_map.
    clear - Fa. induction Fa as [|x y xs ys E F IH]; [reflexivity|]. cbn [combine map fst snd]. rewrite IH. rewrite app_nth2 by lia. do 3 f_equal. lia.
Qed.
Lemma encode_0 m f data : (f <= m)%nat -> encode m f 0 data = repeat [] f.
Proof.
  intros H. unfold encode, cols_Z, ec_encode_data. rewrite skipn_enc by exact H. rewrite !map_map. generalize (m - f)%nat at 2 as s. intros s. cbn [seq map]. clear. revert s. induction f as [|f IH]; intros s; [reflexivity|]. cbn [seq map repeat]. now rewrite IH.
Qed.
Lemma zip_app_assoc : forall a b c, length a = length b -> length b = length c -> zip_app (zip_app a b) c = zip_app a (zip_app b c).
Proof. induction a as [|x a IH]; intros [|y b] [|z c] H1 H2; cbn in *; try lia; [reflexivity|]. rewrite <- app_assoc. f_equal. apply IH; lia. Qed.
Lemma zip_app_nil_l : forall n b, length b = n -> zip_app (repeat [] n) b = b.
Proof. induction n as [|n IH]; intros [|y b] H; cbn in *; try lia; [reflexivity|]. f_equal. apply IH. lia. Qed.
Lemma zip_app_nil_r : forall n b, length b = n -> zip_app b (repeat [] n) = b.
Proof. induction n as [|n IH]; intros [|y b] H; cbn in *; try lia; [reflexivity|]. rewrite app_nil_r. f_equal. apply IH. lia. Qed.
Lemma zip_app_length : forall a b, length a = length b -> length (zip_app a b) = length a.
Proof. induction a as [|x a IH]; intros [|y b] H; cbn in *; try lia. rewrite IH; lia. Qed.

Lemma fold_min_le : forall l x, fold_left Z.min l x <= x /\ Forall (fun y => fold_left Z.min l x <= y) l /\ (fold_left Z.min l x = x \/ In (fold_left Z.min l x) l).
Proof.
  induction l as [|y l IH]; intros x; cbn [fold_left]; [split; [lia|split; [constructor|auto]]|]. destruct (IH (Z.min x y)) as (A & B & C). split; [lia|]. split; [constructor; [lia|exact B]|]. destruct C as [C|C]; [|right; right; exact C].
  destruct (Z.min_spec x y) as [[_ E]|[_ E]]; rewrite E in *; [left; exact C|right; left; now symmetry].
Qed.
Lemma peek_rest c : cur_inv c -> 0 <= peek_len c <= zlen (rest c) /\ (rest c <> [] -> 0 < peek_len c).
Proof.
  intros (HF & H0 & Hlt). unfold peek_len, rest. destruct (nth_error (cu_sg c) (cu_si c)) as [v|]; [|split; [unfold zlen; cbn; lia|congruence]]. rewrite zlen_app, zlen_drop by lia. pose proof (zlen_nonneg (concat (skipn (S (cu_si c)) (cu_sg c)))). split; [lia|intros _; lia].
Qed.
Lemma next_exact c n : cur_inv c -> 0 < n <= peek_len c -> exists v c', cursor_next c n = (Some v, c') /\ v ++ rest c' = rest c /\ zlen v = n /\ cur_inv c'.
Proof.
  intros CI H. pose proof (next_spec c n CI ltac:(lia)) as N. pose proof (peek_rest c CI) as [P _]. destruct (cursor_next c n) as [[v|] c'] eqn:E.
  - destruct N as (N1 & N2 & N3 & N4 & N5 & _). exists v, c'. split; [reflexivity|]. split; [exact N1|]. split; [|exact N3].
    (* next never returns less than it was asked for when the segment has it *)
    unfold cursor_next in E. destruct (Z.eqb_spec (peek_len c) 0); [lia|]. unfold peek_len in *. destruct CI as (HF & H0 & Hlt). destruct (nth_error (cu_sg c) (cu_si c)) as [w|] eqn:Ew; [|lia].
    assert (En : nth (cu_si c) (cu_sg c) [] = w) by (apply nth_error_nth; exact Ew). rewrite En in E. destruct (Z.ltb_spec n (zlen w - cu_vi c)); [|destruct (Z.gtb_spec (cu_vi c) 0)]; injection E as <- <-.
    + rewrite zlen_take; [lia|]. rewrite zlen_drop by lia. lia.
    + rewrite zlen_drop by lia. lia.
    + lia.
  - destruct N as [N _]. rewrite N in P. change (zlen []) with 0 in P. lia.
Qed.

Lemma next_all_spec n : 0 < n -> forall cs, Forall (fun c => cur_inv c /\ n <= peek_len c) cs ->
  exists vs cs', next_all n cs = Some (vs, cs') /\ Forall2 (fun (v : list Z) (c : cursor) => length v = Z.to_nat n /\ cur_inv c) vs cs' /\ map rest cs = map (fun vc : list Z * cursor => fst vc ++ rest (snd vc)) (combine vs cs').
Proof.
  intros Hn. induction cs as [|c cs IH]; intros H; [exists [], []; repeat split; constructor|]. inversion H as [|? ? [CI Hp] H']; subst. destruct (next_exact c n CI ltac:(lia)) as (v & c' & E & Er & Lv & CI'). destruct (IH H') as (vs & cs' & E2 & F2 & M2).
  exists (v :: vs), (c' :: cs'). cbn [next_all]. rewrite E, E2. split; [reflexivity|]. split; [constructor; [split; [unfold zlen in Lv; lia|exact CI']|exact F2]|]. cbn [map combine fst snd]. now rewrite Er, M2.
Qed.

Lemma encodev_loop_spec m f k : (f <= m)%nat -> k = (m - f)%nat -> (1 <= k)%nat -> forall fuel cs l len out, 0 <= l <= len -> len - l <= Z.of_nat fuel -> length cs = k -> Forall (fun c => cur_inv c /\ zlen (rest c) = len - l) cs -> length out = f ->
  encodev_loop fuel m f cs l len out = Some (zip_app out (encode m f (Z.to_nat (len - l)) (map rest cs))).
Proof.
  intros Hf Hk K1. induction fuel as [|fuel IH]; intros cs l len out Hl Hfu Lc FC Lo; cbn [encodev_loop].
  - destruct (Z.ltb_spec l len); [lia|]. replace (Z.to_nat (len - l)) with O by lia. rewrite encode_0 by exact Hf. now rewrite zip_app_nil_r.
  - destruct (Z.ltb_spec l len) as [Hlt|Hge].
    2:{ replace (Z.to_nat (len - l)) with O by lia. rewrite encode_0 by exact Hf. now rewrite zip_app_nil_r. }
    destruct cs as [|c0 cs]; [cbn in Lc; lia|]. cbn [map min_list]. set (ncl := fold_left Z.min (map peek_len cs) (peek_len c0)). destruct (fold_min_le (map peek_len cs) (peek_len c0)) as (M1 & M2 & M3). fold ncl in M1, M2, M3.
    assert (FP : Forall (fun c => cur_inv c /\ 0 < peek_len c) (c0 :: cs)). { apply Forall_forall. intros c Ic. destruct (proj1 (Forall_forall _ _) FC c Ic) as [CI Lr]. split; [exact CI|]. apply (peek_rest c CI). intros Z0. rewrite Z0 in Lr. change (zlen []) with 0 in Lr. lia. }
    assert (Pos : 0 < ncl). { destruct M3 as [->|M3]; [exact (proj2 (proj1 (Forall_forall _ _) FP c0 (or_introl eq_refl)))|]. apply in_map_iff in M3. destruct M3 as (c & <- & Ic). exact (proj2 (proj1 (Forall_forall _ _) FP c (or_intror Ic))). }
    assert (FN : Forall (fun c => cur_inv c /\ ncl <= peek_len c) (c0 :: cs)). { apply Forall_forall. intros c Ic. split; [exact (proj1 (proj1 (Forall_forall _ _) FP c Ic))|]. destruct Ic as [<-|Ic]; [exact M1|]. rewrite Forall_map in M2. exact (proj1 (Forall_forall _ _) M2 c Ic). }
    assert (Le : ncl <= len - l). { destruct (proj1 (Forall_forall _ _) FC c0 (or_introl eq_refl)) as [CI Lr]. pose proof (peek_rest c0 CI). lia. }
    destruct (next_all_spec ncl Pos _ FN) as (vs & cs' & -> & F2 & Er). assert (L2 : length vs = length cs') by (clear - F2; induction F2; cbn; congruence).
    assert (Lc' : length cs' = k). { apply (f_equal (@length _)) in Er. rewrite !map_length, combine_length in Er. lia. }
    rewrite (IH cs' (l + ncl) len).
    + rewrite zip_app_assoc by (rewrite ?encode_length by exact Hf; congruence). f_equal. f_equal. rewrite zip_app_encode.
      * replace (Z.to_nat ncl + Z.to_nat (len - (l + ncl)))%nat with (Z.to_nat (len - l)) by lia. f_equal. change (rest c0 :: map rest cs) with (map rest (c0 :: cs)). rewrite Er. clear. revert cs'. induction vs as [|v vs IH]; intros [|c cs']; cbn; auto. now rewrite IH.
      * exact Hf.
      * clear - F2. induction F2 as [|v c vs cs2 [Lv _] F IH]; cbn [map]; constructor; auto.
      * now rewrite map_length.
    + lia.
    + lia.
    + exact Lc'.
    + assert (Ls : Forall (fun r => zlen r = len - l) (map rest (c0 :: cs))) by (rewrite Forall_map; eapply Forall_impl; [|exact FC]; cbn; tauto). rewrite Er in Ls. clear - F2 Ls Pos. revert Ls. induction F2 as [|v c vs cs2 [Lv CI] F IH]; intros Ls; constructor; cbn [combine map fst snd] in Ls; inversion Ls as [|? ? H1 H2]; subst; [|now apply IH].
      split; [exact CI|]. rewrite zlen_app in H1. unfold zlen in *. lia.
    + rewrite zip_app_length; [exact Lo|]. rewrite encode_length by exact Hf. exact Lo.
Qed.

(** Encoding scattered columns gives the parity of the columns' bytes, however each is split into nonempty segments. *)
Theorem C06_encodev_is_encode m f len (data : list sglist) :
  (f < m)%nat -> length data = (m - f)%nat -> Forall (fun sg => Forall (fun v => v <> []) sg /\ length (concat sg) = len) data ->
  encodev m f (Z.of_nat len) data = Some (encode m f len (map (@concat Z) data)).
Proof.
  intros Hf L H. unfold encodev. rewrite (encodev_loop_spec m f (m - f)); try lia.
  - rewrite zip_app_nil_l by (apply encode_length; lia). rewrite Z.sub_0_r, Nat2Z.id. rewrite map_map. do 2 f_equal. apply map_ext. intros sg. apply (rest_from_skipn sg 0).
  - now rewrite map_length.
  - rewrite Forall_map. eapply Forall_impl; [|exact H]. cbn beta. intros sg [NE Lc]. split; [now apply next_seg_inv|]. unfold cursor_from. rewrite rest_from_skipn. cbn [skipn]. unfold zlen. lia.
  - apply repeat_length.
Qed.

(** * One column at a time *)
Definition update_all (m f len : nat) (data : list (list Z)) : list (list Z) :=
  fold_left (fun par ic => encode_update m f len (snd ic) par (fst ic)) (combine (seq 0 (m - f)) data) (repeat (repeat 0 len) f).

Lemma dot_snoc : forall n r x y, length x = n -> (n < length r)%nat -> dot g0 gadd gmul r (x ++ [y]) = gadd (dot g0 gadd gmul r x) (gmul (nth n r g0) y).
Proof.
  induction n as [|n IH]; intros [|a r] [|b x] y L H; cbn [length] in *; try lia; cbn [app dot nth].
  - apply gf_eq. rewrite !gz_add, gz_mul. assert (X : dot g0 gadd gmul r [] = g0) by (destruct r; reflexivity). rewrite X. rewrite gz_0, Z.lxor_0_r. now rewrite Z.lxor_0_l.
  - rewrite IH by lia. apply gf_eq. rewrite !gz_add. now rewrite Z.lxor_assoc.
Qed.

(** Feeding the data columns one at a time into zeroed parity gives the same parity as encoding them together. *)
Theorem C06_encode_update_is_encode m f len data : (f < m)%nat -> columns (m - f) len data -> update_all m f len data = encode m f len data.
Proof.
  intros Hf [L C]. unfold update_all.
  assert (Gen : forall suf pre par, pre ++ suf = data -> par = encode m f len pre -> fold_left (fun par ic => encode_update m f len (snd ic) par (fst ic)) (combine (seq (length pre) (length suf)) suf) par = encode m f len data).
  { induction suf as [|c suf IH]; intros pre par E ->.
    - rewrite app_nil_r in E. now subst.
    - cbn [length seq combine fold_left fst snd]. replace (S (length pre)) with (length (pre ++ [c])) by (rewrite app_length; cbn; lia). apply IH; [now rewrite <- app_assoc|].
      assert (Lp : (length pre < m - f)%nat) by (rewrite <- L, <- E, app_length; cbn; lia).
      unfold encode_update, encode, cols_Z, ec_encode_data. rewrite !map_map.
      assert (RL : Forall (fun r => length r = (m - f)%nat) (skipn (m - f) (enc_matrix m f))) by (rewrite skipn_enc by lia; rewrite Forall_map; apply Forall_forall; intros; apply parity_row_length).
      induction RL as [|r rows Lr RL IHr]; [reflexivity|]. cbn [map combine fst snd]. rewrite IHr. f_equal. rewrite !map_map. apply map_ext_in. intros p Ip. apply in_seq in Ip. rewrite nth_map_seq by lia. rewrite !slice_cols. unfold slice. rewrite map_app. cbn [map].
      rewrite (dot_snoc (length pre)) by (rewrite ?map_length; lia). now rewrite gz_add. }
  specialize (Gen data [] (repeat (repeat 0 len) f) eq_refl). rewrite L in Gen. cbn [length] in Gen. apply Gen.
  unfold encode, cols_Z, ec_encode_data. rewrite skipn_enc by lia. rewrite !map_map. cbn [cols_gf map].
  assert (X : forall n s, repeat (repeat 0 len) n = map (fun x => map gz (map (fun _ : nat => dot g0 gadd gmul (parity_row (m - f) f x) []) (seq 0 len))) (seq s n)); [|apply X].
  induction n as [|n IH]; intros s; [reflexivity|]. cbn [repeat seq map]. rewrite <- IH. f_equal. rewrite map_map. assert (Y : forall u : list gf, dot g0 gadd gmul u [] = g0) by (intros [|]; reflexivity). rewrite Y. clear. generalize O. induction len as [|len IH]; intros s; [reflexivity|]. cbn [repeat seq map]. now rewrite <- IH.
Qed.

(** * Cases *)

(** The golden matrices of codec.rs:488-524 that fix the on-disk format. *)
Example C06_golden_matrices :
  map (map gz) (enc_matrix 3 1) = [[1; 0]; [0; 1]; [1; 1]] /\
  map (map gz) (enc_matrix 5 2) = [[1; 0; 0]; [0; 1; 0]; [0; 0; 1]; [244; 142; 1]; [71; 167; 122]] /\
  map (map gz) (skipn 4 (enc_matrix 7 3)) = [[71; 167; 122; 186]; [167; 71; 186; 122]; [122; 186; 71; 167]] /\
  map (map gz) (skipn 10 (enc_matrix 15 5)) =
    [[221; 152; 173; 157; 93; 150; 61; 170; 142; 244]; [152; 221; 157; 173; 150; 93; 170; 61; 244; 142]; [61; 170; 93; 150; 173; 157; 221; 152; 71; 167];
     [170; 61; 150; 93; 157; 173; 152; 221; 167; 71]; [93; 150; 61; 170; 221; 152; 173; 157; 122; 186]].
Proof. vm_compute. repeat split; reflexivity. Qed.

Definition data53 : list (list Z) := [[1; 255]; [2; 128]; [77; 0]].
Example C06_case : columns 3 2 data53 /\ at_most_lost 5 2 (fun r => (r =? 0)%nat || (r =? 2)%nat) /\
  decode 5 2 2 [[2; 128]; nth 0 (encode 5 2 2 data53) []; nth 1 (encode 5 2 2 data53) []] 2 (fun r => (r =? 0)%nat || (r =? 2)%nat) = Some [[1; 255]; [77; 0]].
Proof.
  split; [|split].
  - split; [reflexivity|]. repeat (constructor; [split; [reflexivity|]; repeat (constructor; [lia|]); constructor|]). constructor.
  - unfold at_most_lost. cbn. lia.
  - vm_compute. reflexivity.
Qed.
(** One loss too many is a panic, not wrong data. *)
Example C06_case_too_many : decode 5 2 2 [[2; 128]; [0; 0]; [0; 0]] 3 (fun r => (r <? 3)%nat) = None.
Proof. vm_compute. reflexivity. Qed.
Example C06_case_encodev : encodev 3 1 4 [[[1; 2]; [3; 4]]; [[5]; [6; 7; 8]]] = Some (encode 3 1 4 [[1; 2; 3; 4]; [5; 6; 7; 8]]) /\ encode 3 1 4 [[1; 2; 3; 4]; [5; 6; 7; 8]] = [[4; 4; 4; 12]].
Proof. vm_compute. split; reflexivity. Qed.
Example C06_case_update : update_all 5 2 2 data53 = encode 5 2 2 data53 /\ length (encode 5 2 2 data53) = 2%nat.
Proof. vm_compute. split; reflexivity. Qed.
(** With more than 256 columns the Cauchy construction would divide by zero modulo 256. *)
Example C06_case_limit : ginv (gadd (of_Z 256) (of_Z 0)) = g0.
Proof. apply gf_eq. vm_compute. reflexivity. Qed.

Print Assumptions C06_decode_rebuilds_lost_columns.
Print Assumptions C06_lost_columns_are_determined.
Print Assumptions C06_single_parity_is_xor.
Print Assumptions C06_encodev_is_encode.
Print Assumptions C06_encode_update_is_encode.
