(** C07 (and C55): scatter/gather cursors, splitting, padding. *)
From Verif Require Import Common SG_Model.

(** The bytes a cursor has not yet returned. *)
Definition rest (c : cursor) : list Z :=
  match nth_error (cu_sg c) (cu_si c) with
  | Some v => zdrop (cu_vi c) v ++ concat (skipn (S (cu_si c)) (cu_sg c))
  | None => []
  end.

Definition cur_inv (c : cursor) : Prop :=
  Forall (fun v => v <> []) (cu_sg c) /\ 0 <= cu_vi c /\
  match nth_error (cu_sg c) (cu_si c) with
  | Some v => cu_vi c < zlen v
  | None => cu_vi c = 0
  end.

Lemma skipn_nth {A} (l : list A) i v : nth_error l i = Some v -> skipn i l = v :: skipn (S i) l.
Proof.
  revert l; induction i as [|i IH]; intros [|x l] H; cbn in *; try discriminate.
  - now injection H as ->.
  - rewrite (IH l H). reflexivity.
Qed.

Lemma zlen_pos {A} (v : list A) : v <> [] -> 0 < zlen v.
Proof. destruct v; [congruence|]. rewrite zlen_cons. pose proof (zlen_nonneg v). lia. Qed.

Lemma next_seg_inv sg i : Forall (fun v : iovec => v <> []) sg -> cur_inv (Cursor sg i 0).
Proof.
  intros HF. split; [exact HF|]. split; cbn; [lia|]. destruct (nth_error sg i) eqn:E; [|reflexivity].
  apply zlen_pos. rewrite Forall_forall in HF. apply HF. eapply nth_error_In; eauto.
Qed.

Lemma rest_from_skipn sg i : rest (Cursor sg i 0) = concat (skipn i sg).
Proof.
  unfold rest; cbn [cu_sg cu_si cu_vi]. destruct (nth_error sg i) eqn:E.
  - rewrite (skipn_nth _ _ _ E). cbn [concat]. now rewrite zdrop_0 by lia.
  - apply nth_error_None in E. now rewrite skipn_all2 by lia.
Qed.

Lemma next_spec c max : cur_inv c -> 0 <= max ->
  match cursor_next c max with
  | (None, c') => rest c = [] /\ c' = c
  | (Some p, c') => p ++ rest c' = rest c /\ zlen p <= max /\ cur_inv c' /\ rest c <> [] /\
                    (0 < max -> p <> []) /\ cu_sg c' = cu_sg c
  end.
Proof.
  intros (HF & H0 & Hlt) Hmax. unfold cursor_next, peek_len.
  destruct (nth_error (cu_sg c) (cu_si c)) as [v|] eqn:E.
  2:{ cbn. split; [|reflexivity]. unfold rest. now rewrite E. }
  assert (En : nth (cu_si c) (cu_sg c) [] = v) by (apply nth_error_nth; exact E).
  rewrite En. destruct (Z.eqb_spec (zlen v - cu_vi c) 0); [lia|].
  assert (Hne : rest c <> []).
  { unfold rest. rewrite E. intros H. apply app_eq_nil in H. destruct H as [H _].
    apply (f_equal zlen) in H. rewrite zlen_drop in H by lia; change (zlen []) with 0 in H. lia. }
  destruct (Z.ltb_spec max (zlen v - cu_vi c)).
  - split; [|split; [|split; [|split; [exact Hne|split; [|reflexivity]]]]].
    + unfold rest; cbn [cu_sg cu_si cu_vi]. rewrite E. rewrite app_assoc. f_equal.
      rewrite <- (ztake_drop max (zdrop (cu_vi c) v)) at 2. f_equal.
      rewrite zdrop_zdrop by lia. f_equal. lia.
    + rewrite zlen_take; [lia|]. rewrite zlen_drop by lia. lia.
    + split; [exact HF|]. split; cbn [cu_sg cu_si cu_vi]; [lia|]. rewrite E. lia.
    + intros Hm Hp. apply (f_equal zlen) in Hp. change (zlen []) with 0 in Hp; rewrite zlen_take in Hp; [lia|].
      rewrite zlen_drop by lia. lia.
  - destruct (Z.gtb_spec (cu_vi c) 0).
    + split; [|split; [|split; [|split; [exact Hne|split; [|reflexivity]]]]].
      * rewrite rest_from_skipn. unfold rest. now rewrite E.
      * rewrite zlen_drop by lia. lia.
      * apply next_seg_inv. exact HF.
      * intros _ Hp. apply (f_equal zlen) in Hp. change (zlen []) with 0 in Hp; rewrite zlen_drop in Hp by lia. lia.
    + assert (Ev : cu_vi c = 0) by lia. rewrite Ev in *.
      split; [|split; [|split; [|split; [exact Hne|split; [|reflexivity]]]]].
      * rewrite rest_from_skipn. unfold rest. rewrite E, Ev. now rewrite zdrop_0 by lia.
      * lia.
      * apply next_seg_inv. exact HF.
      * intros _ Hp. apply (f_equal zlen) in Hp. change (zlen []) with 0 in Hp. lia.
Qed.

(** ** C07 *)

Definition pieces (rs : list (option iovec)) : list Z :=
  concat (map (fun r => match r with Some p => p | None => [] end) rs).

Lemma run_spec : forall ms c rs c', Forall (fun m => 0 <= m) ms -> cur_inv c ->
  cursor_run c ms = (rs, c') ->
  pieces rs ++ rest c' = rest c /\ cur_inv c' /\
  Forall2 (fun m r => match r with Some p => zlen p <= m /\ (0 < m -> p <> []) | None => True end) ms rs /\
  (In None rs -> rest c' = []).
Proof.
  induction ms as [|m ms IH]; intros c rs c' HF Hc H; cbn [cursor_run] in H.
  - injection H as <- <-. cbn. repeat split; auto; try apply Hc. contradiction.
  - inversion HF as [|? ? Hm HF']; subst.
    pose proof (next_spec c m Hc Hm) as Hs.
    destruct (cursor_next c m) as [r c1]. destruct (cursor_run c1 ms) as [rs' c2] eqn:E2.
    injection H as <- <-.
    destruct r as [p|].
    + destruct Hs as (Hp & Hl & Hc1 & Hne & Hpos & _).
      destruct (IH _ _ _ HF' Hc1 E2) as (H1 & H2 & H3 & H4).
      split; [|split; [exact H2|split]].
      * unfold pieces in *. cbn [map concat]. rewrite <- app_assoc, H1. exact Hp.
      * constructor; auto.
      * intros [Hbad|Hin]; [discriminate|auto].
    + destruct Hs as (Hr & ->).
      destruct (IH _ _ _ HF' Hc E2) as (H1 & H2 & H3 & H4).
      split; [|split; [exact H2|split]].
      * unfold pieces in *. cbn [map concat app]. exact H1.
      * constructor; auto.
      * intros _. rewrite Hr in H1. now apply app_eq_nil in H1.
Qed.

(** Whatever sizes are requested, the pieces concatenate to a prefix of the
    list's bytes, none is longer than requested or needlessly empty, and the
    cursor only says "end" when every byte has been returned. *)
Theorem C07_cursor_partial : forall (s : sglist) (ms : list Z),
  Forall (fun v => v <> []) s -> Forall (fun m => 0 <= m) ms ->
  let rs := fst (cursor_run (cursor_from s) ms) in
  (exists tail, pieces rs ++ tail = concat s /\ (In None rs -> tail = [])) /\
  Forall2 (fun m r => match r with Some p => zlen p <= m /\ (0 < m -> p <> []) | None => True end) ms rs.
Proof.
  intros s ms HF Hms rs. unfold rs. destruct (cursor_run (cursor_from s) ms) as [rs' c'] eqn:E.
  cbn [fst]. destruct (run_spec ms (cursor_from s) rs' c' Hms) as (H1 & H2 & H3 & H4); auto.
  { apply next_seg_inv. exact HF. }
  split; [|exact H3]. exists (rest c'). split; [|exact H4].
  rewrite H1. unfold cursor_from. rewrite rest_from_skipn. reflexivity.
Qed.

(** With an empty segment inside, the full claim is false: the cursor reports
    the end although bytes remain. *)
Theorem C07_cursor_refuted : exists (s : sglist) (ms : list Z),
  In None (fst (cursor_run (cursor_from s) ms)) /\ pieces (fst (cursor_run (cursor_from s) ms)) <> concat s.
Proof. exists [[]; [7]], [4; 4]. split; [left; reflexivity|discriminate]. Qed.

Example C07_ex : fst (cursor_run (cursor_from [[1;2;3];[4;5]]) [2;2;9;9]) =
  [Some [1;2]; Some [3]; Some [4;5]; None].
Proof. reflexivity. Qed.

(** *** Splitting into equal columns *)

Lemma one_col_spec : forall fuel c l col_len, cur_inv c -> 0 <= l <= col_len ->
  col_len - l <= zlen (rest c) -> (Z.to_nat (col_len - l) <= fuel)%nat ->
  exists col c', one_col fuel c l col_len = Some (col, c') /\
    concat col = ztake (col_len - l) (rest c) /\ rest c' = zdrop (col_len - l) (rest c) /\
    cur_inv c'.
Proof.
  induction fuel as [|fu IH]; intros c l col_len Hc Hl Hr Hf; cbn [one_col];
    destruct (Z.ltb_spec l col_len).
  - lia.
  - exists [], c. replace (col_len - l) with 0 by lia. rewrite ztake_0, zdrop_0 by lia. auto.
  - pose proof (next_spec c (col_len - l) Hc ltac:(lia)) as Hs.
    destruct (cursor_next c (col_len - l)) as [[p|] c1].
    + destruct Hs as (Hp & Hpl & Hc1 & _ & Hpos & _). specialize (Hpos ltac:(lia)).
      pose proof (zlen_pos p Hpos) as Hpp.
      assert (Hrl : zlen (rest c) = zlen p + zlen (rest c1)) by (rewrite <- Hp, zlen_app; reflexivity).
      destruct (IH c1 (l + zlen p) col_len Hc1) as (col & c' & E & E1 & E2 & E3); [lia|lia|lia|].
      rewrite E. exists (p :: col), c'. split; [reflexivity|]. cbn [concat]. rewrite E1, E2.
      rewrite <- Hp. rewrite ztake_app, zdrop_app by lia.
      rewrite (ztake_all _ p), (zdrop_all _ p) by lia.
      replace (col_len - l - zlen p) with (col_len - (l + zlen p)) by lia. auto.
    + destruct Hs as [Hs _]. rewrite Hs in Hr; change (zlen []) with 0 in Hr. lia.
  - exists [], c. replace (col_len - l) with 0 by lia. rewrite ztake_0, zdrop_0 by lia. auto.
Qed.

Lemma all_cols_spec fuel col_len : 0 <= col_len -> (Z.to_nat col_len <= fuel)%nat ->
  forall m c, cur_inv c -> Z.of_nat m * col_len = zlen (rest c) ->
  exists cols c', all_cols fuel m c col_len = Some (cols, c') /\
    length cols = m /\ rest c' = [] /\ cur_inv c' /\
    forall i, 0 <= i < Z.of_nat m ->
      concat (nth (Z.to_nat i) cols []) = ztake col_len (zdrop (i * col_len) (rest c)).
Proof.
  intros Hcl Hf. induction m as [|m IH]; intros c Hc Hlen; cbn [all_cols].
  - exists [], c. split; [reflexivity|]. split; [reflexivity|]. split; [apply zlen_0_nil; lia|]. split; [exact Hc|lia].
  - destruct (one_col_spec fuel c 0 col_len Hc) as (col & c1 & E & E1 & E2 & E3); [lia|lia|lia|].
    rewrite Z.sub_0_r in *. rewrite E.
    destruct (IH c1 E3) as (cols & c' & E' & L' & R' & I' & H').
    { rewrite E2, zlen_drop by lia. lia. }
    rewrite E'. exists (col :: cols), c'. split; [reflexivity|]. cbn [length].
    split; [lia|]. split; [exact R'|]. split; [exact I'|].
    intros i Hi. destruct (Z.eq_dec i 0) as [->|Hne].
    + cbn [Z.to_nat nth Z.mul]. rewrite E1. rewrite zdrop_0 by lia. reflexivity.
    + replace (Z.to_nat i) with (S (Z.to_nat (i - 1))) by lia. cbn [nth].
      rewrite H' by lia. rewrite E2. f_equal. rewrite zdrop_zdrop by nia. f_equal. lia.
Qed.

(** Splitting a buffered stripe of m * col_len bytes into the columns to be
    written to the m data disks: column i holds exactly bytes
    [i * col_len, (i+1) * col_len) of the stripe, whatever the segment
    boundaries, and no byte is left over. *)
Theorem C07_columns : forall (s : sglist) (m : nat) (col_len : Z),
  Forall (fun v => v <> []) s -> 0 <= col_len -> zlen (concat s) = Z.of_nat m * col_len ->
  exists cols c', all_cols (Z.to_nat col_len) m (cursor_from s) col_len = Some (cols, c') /\
    length cols = m /\ peek_len c' = 0 /\
    forall i, 0 <= i < Z.of_nat m ->
      concat (nth (Z.to_nat i) cols []) = ztake col_len (zdrop (i * col_len) (concat s)).
Proof.
  intros s m col_len HF Hc Hlen.
  assert (Er : rest (cursor_from s) = concat s).
  { unfold cursor_from. now rewrite rest_from_skipn. }
  destruct (all_cols_spec (Z.to_nat col_len) col_len Hc ltac:(lia) m (cursor_from s))
    as (cols & c' & E & L' & R' & Hinv & H').
  { apply next_seg_inv. exact HF. }
  { rewrite Er. lia. }
  exists cols, c'. split; [exact E|]. split; [exact L'|]. split.
  - destruct Hinv as (_ & Hv0 & Hv). unfold rest in R'. unfold peek_len.
    destruct (nth_error (cu_sg c') (cu_si c')) as [v|]; [|reflexivity].
    apply app_eq_nil in R'. destruct R' as [R' _]. apply (f_equal zlen) in R'.
    change (zlen []) with 0 in R'. rewrite zlen_drop in R' by lia. lia.
  - intros i Hi. rewrite <- Er. apply H'. exact Hi.
Qed.

Example C07_columns_ex :
  option_map (fun x => map (@concat Z) (fst x)) (all_cols 2 3 (cursor_from [[1];[2;3;4;5];[6]]) 2)
  = Some [[1;2];[3;4];[5;6]].
Proof. reflexivity. Qed.

(** ** C55: padding to whole LBAs *)

Lemma pad_loop_spec : forall bufs acc out r,
  Forall (fun b => zlen b mod BYTES_PER_LBA = 0) out ->
  pad_loop bufs acc out = Some r ->
  Forall (fun b => zlen b mod BYTES_PER_LBA = 0) (snd r) /\
  concat (snd r) ++ match fst r with Some a => a | None => [] end =
  concat out ++ match acc with Some a => a | None => [] end ++ concat bufs.
Proof.
  induction bufs as [|db bufs IH]; intros acc out r HF H; cbn [pad_loop] in H.
  - injection H as <-. cbn [fst snd concat]. rewrite app_nil_r. auto.
  - destruct (Z.eqb_spec (zlen db mod BYTES_PER_LBA) 0) as [E|E].
    + destruct acc; [discriminate|].
      apply IH in H.
      * destruct H as [H1 H2]. split; [exact H1|]. rewrite H2. rewrite concat_app. cbn [concat app].
        rewrite app_nil_r, <- app_assoc. reflexivity.
      * apply Forall_app. auto.
    + destruct acc as [a|].
      * destruct (zlen db >? BYTES_PER_LBA); [discriminate|].
        cbn zeta in H. destruct (Z.eqb_spec (zlen (a ++ db) mod BYTES_PER_LBA) 0).
        -- apply IH in H; [|apply Forall_app; auto].
           destruct H as [H1 H2]. split; [exact H1|]. rewrite H2. rewrite concat_app. cbn [concat app].
           rewrite app_nil_r, <- !app_assoc. reflexivity.
        -- apply IH in H; [|exact HF]. destruct H as [H1 H2]. split; [exact H1|].
           rewrite H2. cbn [concat]. now rewrite <- !app_assoc.
      * destruct (zlen db >? BYTES_PER_LBA) eqn:G.
        -- cbn zeta in H.
           assert (Hb : 0 < BYTES_PER_LBA) by reflexivity.
           set (wlen := BYTES_PER_LBA * (zlen db / BYTES_PER_LBA)) in *.
           assert (Hw : 0 <= wlen <= zlen db).
           { unfold wlen. pose proof (zlen_nonneg db). split.
             - apply Z.mul_nonneg_nonneg; [lia|]. apply Z.div_pos; lia.
             - apply Z.mul_div_le. lia. }
           apply IH in H.
           ++ destruct H as [H1 H2]. split; [exact H1|]. rewrite H2, concat_app. cbn [concat app].
              rewrite app_nil_r, <- !app_assoc. f_equal. rewrite app_assoc.
              now rewrite ztake_drop.
           ++ apply Forall_app. split; [exact HF|]. constructor; [|constructor].
              rewrite zlen_take by exact Hw. unfold wlen. rewrite Z.mul_comm. apply Z.mod_mul. lia.
        -- apply IH in H; [|exact HF]. destruct H as [H1 H2]. split; [exact H1|].
           rewrite H2. cbn [concat]. reflexivity.
Qed.

Lemma div_ceil_pad x b : 0 < b -> 0 <= x ->
  0 <= div_ceil x b * b - x < b /\ (div_ceil x b * b) mod b = 0.
Proof.
  intros Hb Hx. unfold div_ceil.
  pose proof (Z.div_mod (x + b - 1) b ltac:(lia)). pose proof (Z.mod_pos_bound (x + b - 1) b Hb).
  split; [lia|]. apply Z.mod_mul. lia.
Qed.

Lemma forall_concat_mod (out : sglist) :
  Forall (fun b => zlen b mod BYTES_PER_LBA = 0) out -> zlen (concat out) mod BYTES_PER_LBA = 0.
Proof.
  assert (Hb : 0 < BYTES_PER_LBA) by reflexivity.
  induction 1 as [|b out Hbm HF IH]; [reflexivity|].
  cbn [concat]. rewrite zlen_app, Z.add_mod, Hbm, IH by lia. reflexivity.
Qed.

(** Whenever [copy_and_pad_sglist] returns, every output buffer is a whole number
    of LBAs, and the output is the input followed by fewer than one LBA of zeros. *)
Theorem C55_pad_preserves_data : forall bufs out,
  copy_and_pad_sglist bufs = Some out ->
  Forall (fun b => zlen b mod 4096 = 0) out /\
  exists n, 0 <= n < 4096 /\ concat out = concat bufs ++ zrepeat 0 n.
Proof.
  intros bufs out H. unfold copy_and_pad_sglist in H.
  assert (Hb : 0 < BYTES_PER_LBA) by reflexivity.
  destruct (existsb unaligned bufs) eqn:E.
  - destruct (pad_loop bufs None []) as [[acc out0]|] eqn:Ep; [|discriminate].
    apply pad_loop_spec in Ep; [|constructor]. cbn [fst snd concat app] in Ep.
    destruct Ep as [H1 H2]. destruct acc as [a|]; injection H as <-.
    + destruct (div_ceil_pad (zlen a) BYTES_PER_LBA Hb (zlen_nonneg a)) as [Hn Hm].
      split.
      * apply Forall_app. split; [exact H1|]. constructor; [|constructor].
        rewrite zlen_app, zlen_repeat by lia.
        replace (zlen a + (div_ceil (zlen a) BYTES_PER_LBA * BYTES_PER_LBA - zlen a))
          with (div_ceil (zlen a) BYTES_PER_LBA * BYTES_PER_LBA) by lia. exact Hm.
      * eexists. split; [exact Hn|]. rewrite concat_app. cbn [concat]. rewrite app_nil_r, app_assoc, H2.
        reflexivity.
    + split; [exact H1|]. exists 0. split; [lia|]. rewrite app_nil_r in H2. rewrite H2.
      now rewrite app_nil_r.
  - injection H as <-. split.
    + rewrite Forall_forall. intros b Hin.
      destruct (Z.eqb_spec (zlen b mod BYTES_PER_LBA) 0) as [G|G]; [exact G|]. exfalso.
      assert (Ht : existsb unaligned bufs = true).
      { apply existsb_exists. exists b. split; [exact Hin|]. unfold unaligned.
        destruct (Z.eqb_spec (zlen b mod BYTES_PER_LBA) 0); [contradiction|reflexivity]. }
      congruence.
    + exists 0. split; [lia|]. now rewrite app_nil_r.
Qed.

(** It does return for the lists bfffs builds: only the last buffer unaligned. *)
Theorem C55_pad_total : forall bufs last,
  Forall (fun b => zlen b mod 4096 = 0) bufs ->
  exists out, copy_and_pad_sglist (bufs ++ [last]) = Some out.
Proof.
  intros bufs last HF. unfold copy_and_pad_sglist.
  destruct (existsb unaligned (bufs ++ [last])) eqn:E; [|eauto].
  assert (G : forall out, exists r, pad_loop (bufs ++ [last]) None out = Some r).
  { clear E. induction HF as [|b bufs Hbm HF IH]; intros out; cbn [app pad_loop].
    - destruct (zlen last mod BYTES_PER_LBA =? 0); [eauto|].
      destruct (zlen last >? BYTES_PER_LBA); eauto.
    - change (zlen b mod BYTES_PER_LBA) with (zlen b mod 4096). rewrite Hbm. cbn. apply IH. }
  destruct (G []) as [[[a|] out] ->]; eauto.
Qed.

(** The panicking case: an aligned buffer after an unaligned one. *)
Theorem C55_pad_total_refuted : exists bufs, copy_and_pad_sglist bufs = None.
Proof. exists [[1]; []]. reflexivity. Qed.

Example C55_ex : exists out, copy_and_pad_sglist [zrepeat 7 4096; [1;2;3]] = Some out /\
  length out = 2%nat /\ zlen (concat out) = 8192.
Proof. eexists. split; [vm_compute; reflexivity|]. split; vm_compute; reflexivity. Qed.

(** [zero_sglist] builds exactly [len] zeros for every positive length. *)
Lemma concat_repeat_zero k : concat (repeat zero_region k) = zrepeat 0 (Z.of_nat k * ZERO_REGION_LEN).
Proof.
  assert (Hz : 0 < ZERO_REGION_LEN) by reflexivity.
  induction k as [|k IH]; [reflexivity|]. cbn [repeat concat]. rewrite IH. unfold zero_region.
  rewrite zrepeat_app by nia. f_equal. lia.
Qed.

Lemma ztake_repeat {A} (x : A) i j : 0 <= i <= j -> ztake i (zrepeat x j) = zrepeat x i.
Proof.
  intros H. unfold ztake, zrepeat. replace (Z.to_nat j) with (Z.to_nat i + Z.to_nat (j - i))%nat by lia.
  rewrite repeat_app, firstn_app, repeat_length, Nat.sub_diag, firstn_O, app_nil_r.
  rewrite <- (repeat_length x (Z.to_nat i)) at 1. apply firstn_all.
Qed.

Theorem C55_zero_sglist : forall len, 0 < len ->
  exists s, zero_sglist len = Some s /\ concat s = zrepeat 0 len.
Proof.
  intros len Hl. assert (Hz : 0 < ZERO_REGION_LEN) by reflexivity. unfold zero_sglist.
  destruct (div_ceil_pad len ZERO_REGION_LEN Hz ltac:(lia)) as [H1 H2].
  set (q := div_ceil len ZERO_REGION_LEN) in *.
  assert (1 <= q) by nia. destruct (Z.ltb_spec q 1); [lia|].
  eexists. split; [reflexivity|]. rewrite concat_app. cbn [concat]. rewrite app_nil_r.
  rewrite concat_repeat_zero. unfold zero_region. rewrite ztake_repeat by lia.
  rewrite Z2Nat.id by lia.
  assert (0 <= (q - 1) * ZERO_REGION_LEN) by (apply Z.mul_nonneg_nonneg; lia).
  rewrite zrepeat_app by lia. f_equal. lia.
Qed.

Print Assumptions C07_cursor_partial.
Print Assumptions C07_cursor_refuted.
Print Assumptions C07_columns.
Print Assumptions C55_pad_preserves_data.
Print Assumptions C55_pad_total.
Print Assumptions C55_pad_total_refuted.
Print Assumptions C55_zero_sglist.
