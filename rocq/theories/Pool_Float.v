(** What the weights of the clusters and the dirtiness of zones are as real numbers. *)
From Verif Require Import Common FSM_Model Float_Model Pool_Model.
From Coq Require Import Reals Lra.
From Flocq Require Import Core BinarySingleNaN.
Open Scope Z_scope.

Notation rnd64 := (round radix2 (SpecFloat.fexp 53 1024) ZnearestE).
Notation rnd32 := (round radix2 (SpecFloat.fexp 24 128) ZnearestE).

Lemma to_f64_exact n : 0 <= n <= 2 ^ 53 -> B2R (to_f64 n) = IZR n /\ is_finite (to_f64 n) = true.
Proof.
  intros H. assert (B : n <= 2 ^ (1024 - 1)) by (refine (Z.le_trans _ _ _ (proj2 H) _); apply Z.pow_le_mono_r; lia).
  destruct (of_Z_correct 53 1024 eq_refl n (proj1 H) B) as (E & F). split; [|exact F]. unfold to_f64. etransitivity; [exact E|]. apply (rnd_small_Z 53 1024 eq_refl). rewrite Z.abs_eq; lia.
Qed.
Lemma to_f32_exact n : 0 <= n <= 2 ^ 24 -> B2R (to_f32 n) = IZR n /\ is_finite (to_f32 n) = true.
Proof.
  intros H. assert (B : n <= 2 ^ (128 - 1)) by (refine (Z.le_trans _ _ _ (proj2 H) _); apply Z.pow_le_mono_r; lia).
  destruct (of_Z_correct 24 128 eq_refl n (proj1 H) B) as (E & F). split; [|exact F]. unfold to_f32. etransitivity; [exact E|]. apply (rnd_small_Z 24 128 eq_refl). rewrite Z.abs_eq; lia.
Qed.

Lemma F095_range : is_finite F095 = true /\ (0 <= B2R F095 <= 1)%R.
Proof.
  split; [reflexivity|]. cbn [F095 B2R]. unfold F2R; cbn [Fnum Fexp cond_Zopp]. change (bpow radix2 (-53)) with (/ IZR (2 ^ 53))%R.
  split.
  - apply Rmult_le_pos; [now apply IZR_le|]. left. apply Rinv_0_lt_compat. now apply IZR_lt.
  - apply Rmult_le_reg_r with (IZR (2 ^ 53)); [now apply IZR_lt|]. rewrite Rmult_assoc, Rinv_l by (apply IZR_neq; discriminate).
    rewrite Rmult_1_l, Rmult_1_r. apply IZR_le. now vm_compute.
Qed.

Lemma ratio_range a s : 0 <= a <= s -> 0 < s -> (0 <= IZR a / IZR s <= 1)%R.
Proof.
  intros H Hs. assert (0 < IZR s)%R by now apply IZR_lt. split.
  - apply Rmult_le_pos; [apply IZR_le; lia|]. left. now apply Rinv_0_lt_compat.
  - apply Rmult_le_reg_r with (IZR s); [assumption|]. unfold Rdiv. rewrite Rmult_assoc, Rinv_l, Rmult_1_l, Rmult_1_r by lra. apply IZR_le; lia.
Qed.

Lemma weight_real g c d : 0 <= alloc_space c <= cg_size g -> 0 < cg_size g <= 2 ^ 52 -> 0 < cg_opt g < 2 ^ 32 -> 0 <= d < 2 ^ 32 ->
  is_finite (weight g c d) = true /\ (d = 0 -> B2R (weight g c d) = rnd64 (IZR (alloc_space c) / IZR (cg_size g))).
Proof.
  intros Ha Hs Ho Hd.
  destruct (to_f64_exact (alloc_space c)) as (Ea & Fa); [lia|]. destruct (to_f64_exact (cg_size g)) as (Es & Fs); [lia|].
  destruct (to_f64_exact (cg_opt g)) as (Eo & Fo); [lia|]. destruct (to_f64_exact d) as (Ed & Fd); [lia|].
  pose proof (ratio_range (alloc_space c) (cg_size g) Ha ltac:(lia)) as U.
  assert (S0 : (0 < IZR (cg_size g))%R) by (apply IZR_lt; lia). assert (O0 : (0 < IZR (cg_opt g))%R) by (apply IZR_lt; lia).
  unfold weight. set (u := div64 (to_f64 (alloc_space c)) (to_f64 (cg_size g))). set (q := div64 (to_f64 d) (to_f64 (cg_opt g))).
  assert (HU : B2R u = rnd64 (IZR (alloc_space c) / IZR (cg_size g)) /\ is_finite u = true).
  { unfold u, div64. rewrite <- Ea, <- Es. apply (div_correct 53 1024 eq_refl _ _ 0); rewrite ?Ea, ?Es; auto; try lia.
    - apply IZR_le; lia.
    - change (bpow radix2 0) with 1%R. lra. }
  destruct HU as (EU & FU).
  assert (RU : (0 <= B2R u <= 1)%R) by (rewrite EU; apply (rnd_range 53 1024 eq_refl _ 0); [lra|change (bpow radix2 0) with 1%R; lra|lia]).
  assert (QR : (0 <= IZR d / IZR (cg_opt g) <= bpow radix2 32)%R).
  { split; [apply Rmult_le_pos; [apply IZR_le; lia|left; now apply Rinv_0_lt_compat]|].
    apply Rmult_le_reg_r with (IZR (cg_opt g)); [assumption|]. unfold Rdiv. rewrite Rmult_assoc, Rinv_l, Rmult_1_r by lra.
    change (bpow radix2 32) with (IZR (2 ^ 32)). rewrite <- mult_IZR. apply IZR_le. nia. }
  assert (HQ : B2R q = rnd64 (IZR d / IZR (cg_opt g)) /\ is_finite q = true).
  { unfold q, div64. rewrite <- Ed, <- Eo. apply (div_correct 53 1024 eq_refl _ _ 32); rewrite ?Ed, ?Eo; auto; try lia.
    - apply IZR_le; lia.
    - apply QR. }
  destruct HQ as (EQ & FQ).
  assert (RQ : (0 <= B2R q <= bpow radix2 32)%R) by (rewrite EQ; apply (rnd_range 53 1024 eq_refl _ 32); [apply QR|apply QR|lia]).
  destruct F095_range as (F9 & R9).
  set (k := match Bcompare F095 u with Some Gt => sub64 F095 u | _ => B754_zero false end).
  assert (HK : (0 <= B2R k <= 1)%R /\ is_finite k = true).
  { unfold k. rewrite Bcompare_correct by assumption. destruct (Rcompare_spec (B2R F095) (B2R u)) as [L|L|L]; cbn [B2R is_finite]; try (split; [lra|reflexivity]).
    destruct (sub_correct 53 1024 eq_refl F095 u 0 F9 FU) as (E & F); [lra|change (bpow radix2 0) with 1%R; lra|lia|].
    split; [|exact F]. unfold sub64. rewrite E. apply (rnd_range 53 1024 eq_refl _ 0); [lra|change (bpow radix2 0) with 1%R; lra|lia]. }
  destruct HK as (RK & FK). fold k. clearbody k.
  assert (B32 : (bpow radix2 32 = 4294967296)%R) by reflexivity. assert (B33 : (bpow radix2 33 = 8589934592)%R) by reflexivity.
  assert (PR : (0 <= B2R k * B2R q <= bpow radix2 32)%R).
  { split; [apply Rmult_le_pos; lra|]. apply Rle_trans with (1 * B2R q)%R; [apply Rmult_le_compat_r; lra|lra]. }
  destruct (mul_correct 53 1024 eq_refl k q 32 FK FQ) as (EM & FM); [lra|lra|lra|lia|].
  assert (RM : (0 <= B2R (mul64 k q) <= bpow radix2 32)%R) by (unfold mul64; rewrite EM; apply (rnd_range 53 1024 eq_refl _ 32); [lra|lra|lia]).
  destruct (add_correct 53 1024 eq_refl (mul64 k q) u 33 FM FU) as (EA & FA); [lra|lra|lra|lia|].
  split; [exact FA|]. intros ->. unfold add64. rewrite EA. unfold mul64. rewrite EM, EQ.
  unfold Rdiv at 1. rewrite Rmult_0_l, (rnd_0 53 1024), Rmult_0_r, (rnd_0 53 1024), Rplus_0_l, (rnd_B2R 53 1024). exact EU.
Qed.

Lemma min_from_spec : forall l best w i, is_finite w = true -> (forall x, In x l -> is_finite x = true) ->
  exists j, min_from best w i l = Some j /\
    ((j = best /\ forall x, In x l -> (B2R w <= B2R x)%R) \/
     (exists m x, j = (i + m)%nat /\ nth_error l m = Some x /\ (B2R x < B2R w)%R /\ forall y, In y l -> (B2R x <= B2R y)%R)).
Proof.
  induction l as [|x l IH]; intros best w i Fw Fl; cbn [min_from].
  - exists best. split; [reflexivity|]. left. split; [reflexivity|]. contradiction.
  - rewrite Bcompare_correct by (auto; apply Fl; now left).
    assert (Fl' : forall y, In y l -> is_finite y = true) by (intros; apply Fl; now right).
    destruct (Rcompare_spec (B2R w) (B2R x)) as [L|L|L].
    + destruct (IH best w (S i) Fw Fl') as (j & E & [(-> & H)|(m & y & -> & N & Hy & H)]); exists (match min_from best w (S i) l with Some j => j | None => O end); rewrite E; (split; [reflexivity|]).
      * left. split; [reflexivity|]. intros y [<-|Hy]; [lra|now apply H].
      * right. exists (S m), y. split; [lia|]. split; [exact N|]. split; [exact Hy|]. intros z [<-|Hz]; [lra|now apply H].
    + destruct (IH best w (S i) Fw Fl') as (j & E & [(-> & H)|(m & y & -> & N & Hy & H)]); exists (match min_from best w (S i) l with Some j => j | None => O end); rewrite E; (split; [reflexivity|]).
      * left. split; [reflexivity|]. intros y [<-|Hy]; [lra|now apply H].
      * right. exists (S m), y. split; [lia|]. split; [exact N|]. split; [exact Hy|]. intros z [<-|Hz]; [lra|now apply H].
    + destruct (IH i x (S i) (Fl x (or_introl eq_refl)) Fl') as (j & E & [(-> & H)|(m & y & -> & N & Hy & H)]); rewrite E.
      * exists i. split; [reflexivity|]. right. exists O, x. split; [lia|]. split; [reflexivity|]. split; [lra|]. intros y [<-|Hy]; [lra|now apply H].
      * exists (S i + m)%nat. split; [reflexivity|]. right. exists (S m), y. split; [lia|]. split; [exact N|]. split; [lra|]. intros z [<-|Hz]; [lra|now apply H].
Qed.

Lemma choose_spec ws : ws <> [] -> (forall x, In x ws -> is_finite x = true) ->
  exists i w, choose ws = Some i /\ nth_error ws i = Some w /\ forall x, In x ws -> (B2R w <= B2R x)%R.
Proof.
  intros N F. destruct ws as [|w ws]; [contradiction|]. cbn [choose].
  destruct (min_from_spec ws O w 1%nat (F w (or_introl eq_refl)) (fun x H => F x (or_intror H))) as (j & E & [(-> & H)|(m & y & -> & Nm & Hy & H)]).
  - exists O, w. split; [exact E|]. split; [reflexivity|]. intros x [<-|Hx]; [lra|now apply H].
  - exists (S m), y. split; [exact E|]. split; [exact Nm|]. intros x [<-|Hx]; [lra|now apply H].
Qed.

Lemma weights_nth : forall gs cs ds i, nth_error (weights gs cs ds) i =
  match nth_error gs i, nth_error cs i, nth_error ds i with Some g, Some c, Some d => Some (weight g c d) | _, _, _ => None end.
Proof.
  induction gs as [|g gs IH]; intros [|c cs] [|d ds] [|i]; cbn [weights nth_error]; try reflexivity; auto;
    repeat match goal with |- context[match ?x with _ => _ end] => destruct x; try reflexivity end.
Qed.
