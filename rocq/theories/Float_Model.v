(** Rust's [f32] and [f64] as IEEE 754 binary32 and binary64 (the definitions of the Flocq library, round to nearest, ties to even), and
    the few facts about them that the models of pool.rs and cleaner.rs need. *)
From Coq Require Import ZArith Reals Lra Lia Bool.
From Flocq Require Import Core Relative BinarySingleNaN.
Open Scope Z_scope.

#[global] Instance prec64 : Prec_gt_0 53 := eq_refl.
#[global] Instance emax64 : Prec_lt_emax 53 1024 := eq_refl.
#[global] Instance prec32 : Prec_gt_0 24 := eq_refl.
#[global] Instance emax32 : Prec_lt_emax 24 128 := eq_refl.

Notation f64 := (binary_float 53 1024).
Notation f32 := (binary_float 24 128).

(** Rust's [as f64], [as f32] and [f64::from] of an unsigned integer. *)
Definition to_f64 (x : Z) : f64 := binary_normalize 53 1024 _ _ mode_NE x 0 false.
Definition to_f32 (x : Z) : f32 := binary_normalize 24 128 _ _ mode_NE x 0 false.
Definition div64 (x y : f64) : f64 := Bdiv mode_NE x y.
Definition div32 (x y : f32) : f32 := Bdiv mode_NE x y.
Definition mul64 (x y : f64) : f64 := Bmult mode_NE x y.
Definition add64 (x y : f64) : f64 := Bplus mode_NE x y.
Definition sub64 (x y : f64) : f64 := Bminus mode_NE x y.

Section Fmt.
Context (p e : Z) {Pp : Prec_gt_0 p} {Pe : Prec_lt_emax p e} (He : 2 < e).
Local Open Scope R_scope.
Local Notation fexp := (SpecFloat.fexp p e).
Local Notation rnd := (round radix2 fexp ZnearestE).

Lemma rnd_le x y : x <= y -> rnd x <= rnd y.
Proof. apply round_le; typeclasses eauto. Qed.
Lemma rnd_0 : rnd 0 = 0. Proof. apply round_0; typeclasses eauto. Qed.
Lemma rnd_bpow k : (SpecFloat.emin p e < k)%Z -> rnd (bpow radix2 k) = bpow radix2 k.
Proof.
  intros H. apply round_generic; [typeclasses eauto|]. apply generic_format_bpow. unfold fexp.
  pose proof Pp as P. red in P. lia.
Qed.
Lemma rnd_small_Z n : (Z.abs n <= 2 ^ p)%Z -> rnd (IZR n) = IZR n.
Proof.
  intros H. apply round_generic; [typeclasses eauto|]. pose proof Pp as P; red in P. pose proof Pe as Q; red in Q.
  apply generic_format_FLT. unfold fexp.
  destruct (Z.eq_dec (Z.abs n) (2 ^ p)) as [E|E].
  - assert (S : exists s : Z, (n = s * 2 ^ p /\ Z.abs s = 1)%Z).
    { destruct (Z.abs_spec n) as [[? ?]|[? ?]]; [exists 1%Z|exists (-1)%Z]; lia. }
    destruct S as (s & -> & Hs). exists (Float radix2 s p); cbn [Fnum Fexp].
    + unfold F2R; cbn [Fnum Fexp]. rewrite mult_IZR. f_equal. now rewrite <- (IZR_Zpower radix2) by lia.
    + change (Z.pow radix2 p) with (2 ^ p)%Z. rewrite Hs. apply Z.pow_gt_1; lia.
    + unfold SpecFloat.emin. lia.
  - exists (Float radix2 n 0); cbn [Fnum Fexp].
    + unfold F2R; cbn. lra.
    + change (Z.pow radix2 p) with (2 ^ p)%Z. lia.
    + unfold SpecFloat.emin. lia.
Qed.

(** Conversions: exact up to 2^p, and never overflowing up to 2^(e-1). *)
Lemma of_Z_correct n : (0 <= n)%Z -> (n <= 2 ^ (e - 1))%Z -> let x := binary_normalize p e _ _ mode_NE n 0 false in
  B2R x = rnd (IZR n) /\ is_finite x = true.
Proof.
  intros H0 H1 x. pose proof Pp as P; red in P. pose proof Pe as Q; red in Q.
  pose proof (binary_normalize_correct p e _ _ mode_NE n 0 false) as C. cbn zeta in C.
  assert (F : F2R (Float radix2 n 0) = IZR n) by (unfold F2R; cbn; lra). rewrite F in C.
  assert (B : Rabs (rnd (IZR n)) < bpow radix2 e).
  { rewrite Rabs_pos_eq by (rewrite <- rnd_0; apply rnd_le; now apply IZR_le).
    apply Rle_lt_trans with (bpow radix2 (e - 1)).
    - rewrite <- (rnd_bpow (e - 1)) by (unfold SpecFloat.emin; lia). apply rnd_le.
      rewrite <- IZR_Zpower by lia. now apply IZR_le.
    - apply bpow_lt. lia. }
  rewrite Rlt_bool_true in C by exact B. unfold x. tauto.
Qed.

(** Quotients of [0 <= a <= 2^p * b]-like numbers do not overflow. *)
Lemma div_correct (x y : binary_float p e) b : is_finite x = true -> is_finite y = true -> 0 < B2R y ->
  0 <= B2R x -> B2R x / B2R y <= bpow radix2 b -> (0 <= b < e)%Z ->
  B2R (Bdiv mode_NE x y) = rnd (B2R x / B2R y) /\ is_finite (Bdiv mode_NE x y) = true.
Proof.
  intros Fx Fy Hy Hx Hq Hb. pose proof Pp as P; red in P. pose proof Pe as Q; red in Q.
  pose proof (Bdiv_correct p e _ _ mode_NE x y) as C. specialize (C ltac:(lra)).
  assert (N : 0 <= B2R x / B2R y) by (apply Rmult_le_pos; [exact Hx|left; now apply Rinv_0_lt_compat]).
  assert (B : Rabs (rnd (B2R x / B2R y)) < bpow radix2 e).
  { rewrite Rabs_pos_eq by (rewrite <- rnd_0; now apply rnd_le).
    apply Rle_lt_trans with (bpow radix2 b).
    - rewrite <- (rnd_bpow b) by (unfold SpecFloat.emin; lia). now apply rnd_le.
    - apply bpow_lt. lia. }
  rewrite Rlt_bool_true in C by exact B. destruct C as (C1 & C2 & _). now rewrite C2.
Qed.

Lemma mul_correct (x y : binary_float p e) b : is_finite x = true -> is_finite y = true -> 0 <= B2R x -> 0 <= B2R y ->
  B2R x * B2R y <= bpow radix2 b -> (0 <= b < e)%Z ->
  B2R (Bmult mode_NE x y) = rnd (B2R x * B2R y) /\ is_finite (Bmult mode_NE x y) = true.
Proof.
  intros Fx Fy Hx Hy Hq Hb. pose proof Pp as P; red in P. pose proof Pe as Q; red in Q.
  pose proof (Bmult_correct p e _ _ mode_NE x y) as C.
  assert (B : Rabs (rnd (B2R x * B2R y)) < bpow radix2 e).
  { rewrite Rabs_pos_eq by (rewrite <- rnd_0; apply rnd_le; now apply Rmult_le_pos).
    apply Rle_lt_trans with (bpow radix2 b).
    - rewrite <- (rnd_bpow b) by (unfold SpecFloat.emin; lia). now apply rnd_le.
    - apply bpow_lt. lia. }
  rewrite Rlt_bool_true in C by exact B. destruct C as (C1 & C2 & _). now rewrite C2, Fx, Fy.
Qed.

Lemma add_correct (x y : binary_float p e) b : is_finite x = true -> is_finite y = true -> 0 <= B2R x -> 0 <= B2R y ->
  B2R x + B2R y <= bpow radix2 b -> (0 <= b < e)%Z ->
  B2R (Bplus mode_NE x y) = rnd (B2R x + B2R y) /\ is_finite (Bplus mode_NE x y) = true.
Proof.
  intros Fx Fy Hx Hy Hq Hb. pose proof Pp as P; red in P. pose proof Pe as Q; red in Q.
  pose proof (Bplus_correct p e _ _ mode_NE x y Fx Fy) as C.
  assert (B : Rabs (rnd (B2R x + B2R y)) < bpow radix2 e).
  { rewrite Rabs_pos_eq by (rewrite <- rnd_0; apply rnd_le; lra).
    apply Rle_lt_trans with (bpow radix2 b).
    - rewrite <- (rnd_bpow b) by (unfold SpecFloat.emin; lia). now apply rnd_le.
    - apply bpow_lt. lia. }
  rewrite Rlt_bool_true in C by exact B. tauto.
Qed.

Lemma sub_correct (x y : binary_float p e) b : is_finite x = true -> is_finite y = true ->
  0 <= B2R x - B2R y -> B2R x - B2R y <= bpow radix2 b -> (0 <= b < e)%Z ->
  B2R (Bminus mode_NE x y) = rnd (B2R x - B2R y) /\ is_finite (Bminus mode_NE x y) = true.
Proof.
  intros Fx Fy Hx Hq Hb. pose proof Pp as P; red in P. pose proof Pe as Q; red in Q.
  pose proof (Bminus_correct p e _ _ mode_NE x y Fx Fy) as C.
  assert (B : Rabs (rnd (B2R x - B2R y)) < bpow radix2 e).
  { rewrite Rabs_pos_eq by (rewrite <- rnd_0; apply rnd_le; lra).
    apply Rle_lt_trans with (bpow radix2 b).
    - rewrite <- (rnd_bpow b) by (unfold SpecFloat.emin; lia). now apply rnd_le.
    - apply bpow_lt. lia. }
  rewrite Rlt_bool_true in C by exact B. tauto.
Qed.

(** A rounded number stays within powers of two. *)
Lemma rnd_range x b : 0 <= x -> x <= bpow radix2 b -> (0 <= b)%Z -> 0 <= rnd x <= bpow radix2 b.
Proof.
  intros H0 H1 Hb. pose proof Pp as P; red in P. split.
  - rewrite <- rnd_0. now apply rnd_le.
  - rewrite <- (rnd_bpow b) by (unfold SpecFloat.emin; lia). now apply rnd_le.
Qed.
Lemma rnd_B2R (x : binary_float p e) : rnd (B2R x) = B2R x.
Proof. apply round_generic; [typeclasses eauto|]. apply generic_format_B2R. Qed.

(** Two numbers in [0, 1] that are more than 2^-p apart do not round to the same number. *)
Lemma rnd_distinct x y : 0 <= x -> x + bpow radix2 (- p) < y -> y <= 1 -> rnd x < rnd y.
Proof.
  intros Hx Hxy Hy. pose proof Pp as P; red in P. pose proof Pe as Q; red in Q.
  destruct (Rlt_le_dec (rnd x) (rnd y)) as [?|L]; [assumption|exfalso].
  assert (E : forall z, 0 <= z <= 1 -> Rabs (rnd z - z) <= / 2 * bpow radix2 (- p)).
  { pose proof (bpow_gt_0 radix2 (- p)) as B0. intros z Hz. destruct (Req_dec z 0) as [->|Nz].
    { rewrite rnd_0, Rminus_diag_eq, Rabs_R0 by reflexivity. lra. }
    destruct (Rle_lt_dec 1 z) as [H1|H1].
    - assert (z = 1) by lra. subst z. change 1 with (bpow radix2 0). rewrite rnd_bpow by (unfold SpecFloat.emin; lia).
      rewrite Rminus_diag_eq, Rabs_R0 by reflexivity. lra.
    - eapply Rle_trans; [apply error_le_half_ulp; typeclasses eauto|]. apply Rmult_le_compat_l; [lra|].
      rewrite ulp_neq_0 by exact Nz. apply bpow_le. unfold cexp, SpecFloat.fexp.
      assert (mag radix2 z <= 0)%Z.
      { apply mag_le_bpow; [exact Nz|]. rewrite Rabs_pos_eq by lra. exact H1. }
      unfold SpecFloat.emin. lia. }
  pose proof (E x ltac:(pose proof (bpow_gt_0 radix2 (- p)); lra)) as Ex. pose proof (E y ltac:(pose proof (bpow_gt_0 radix2 (- p)); lra)) as Ey.
  apply Rabs_le_inv in Ex, Ey. lra.
Qed.
End Fmt.
