(** The rate of a whole v2 filter without index cache. *)
From Coq Require Import Lia Reals Lra.
From Verif Require Import M_V2 M_V1 Spec_Bits Spec_Hash Spec_V2 Spec_V2File Spec_Libm Spec_Real P_Base P_V2 P_V2Make P_V2Size.
From Flocq Require Import Core BinarySingleNaN.
From Verif Require Import P_Float P_FloatDiv P_Real P_RealLibm P_Geom Spec_Rate P_Rate P_RateFloat P_RateFilter.
Open Scope R_scope.

Lemma exp_sq_step y a a' : 0 <= y <= 1 / 20 -> 0 <= a <= 2 -> exp y <= 1 + y + a * (y * y) -> 2 * a + 1 + 2 * a * y + a * a * (y * y) <= 4 * a' ->
  exp (2 * y) <= 1 + 2 * y + a' * ((2 * y) * (2 * y)).
Proof.
  intros Y A E H. replace (2 * y) with (y + y) at 1 by ring. rewrite exp_plus. pose proof (exp_pos y). assert (Q : 0 <= y * y) by apply Rle_0_sqr.
  apply Rle_trans with ((1 + y + a * (y * y)) * (1 + y + a * (y * y))); [apply Rmult_le_compat; lra|].
  replace ((1 + y + a * (y * y)) * (1 + y + a * (y * y))) with (1 + 2 * y + (2 * a + 1 + 2 * a * y + a * a * (y * y)) * (y * y)) by ring.
  replace (a' * (2 * y * (2 * y))) with (4 * a' * (y * y)) by ring. apply Rplus_le_compat_l. apply Rmult_le_compat_r; [exact Q|exact H].
Qed.
Lemma exp_quad B : 0 <= B <= 0.072 -> exp B <= 1 + B + 0.582 * (B * B).
Proof.
  intro H. assert (E1 : exp (B / 8) <= 1 + B / 8 + 1.01 * (B / 8 * (B / 8))).
  { set (y := B / 8). assert (Y : 0 <= y <= 0.009) by (unfold y; lra). assert (P : 0 < 1 - y) by lra.
    apply Rle_trans with (/ (1 - y)).
    - replace y with (- - y) at 1 by ring. rewrite exp_Ropp. apply Rinv_le_contravar; [exact P|]. pose proof (exp_ge_1 (- y)). lra.
    - apply Rmult_le_reg_r with (1 - y); [exact P|]. rewrite Rinv_l by lra. nra. }
  apply (exp_sq_step (B / 8) 1.01 0.762) in E1; [|lra|lra|nra]. replace (2 * (B / 8)) with (B / 4) in E1 by field.
  apply (exp_sq_step (B / 4) 0.762 0.64) in E1; [|lra|lra|nra]. replace (2 * (B / 4)) with (B / 2) in E1 by field.
  apply (exp_sq_step (B / 2) 0.64 0.582) in E1; [|lra|lra|nra]. replace (2 * (B / 2)) with B in E1 by field. exact E1.
Qed.

Lemma v2_x_tight L p : libm_accurate L -> fpp_in_range p = true -> sf_R (sf_of_bits p) <= / 2 -> rl p / ln 2 <= 46 ->
  32768 * ln 2 / IZR (Z.of_N (v2_bucket_cap L p)) <= 1.00205 * (rl p / ln 2).
Proof.
  intros HL Hp P H46. destruct (h_bounds p Hp P) as [R [H1 H2]]. destruct (bucket_cap_real L p HL Hp R) as [C15 [Cu Cl]]. pose proof ln2_num as [Lo Hi]. pose proof eps_small as [Pe Se].
  set (c := IZR (Z.of_N (v2_bucket_cap L p))) in *. assert (c15 : 15 <= c) by (apply IZR_le; lia).
  assert (Eb : bopt p = 32768 * ln 2 / (rl p / ln 2)) by (unfold bopt, s2; field; lra). rewrite Eb in *. set (h := rl p / ln 2) in *. set (l := ln 2) in *.
  assert (Ih : 0 < / h <= 1) by (split; [apply Rinv_0_lt_compat; lra|rewrite <- Rinv_1; apply Rinv_le_contravar; lra]). assert (hh : h * / h = 1) by (apply Rinv_r; lra).
  assert (e : 32 * eps <= / 10000000). { assert (Eq : eps = / 9007199254740992) by reflexivity. rewrite Eq. lra. }
  destruct Cl as [Cl|Cl].
  - exfalso. assert (c <= 32768). { apply Rle_trans with (1 := Cu). unfold Rdiv. rewrite (Rmult_assoc 32768). assert (0 <= l * / h <= 0.6932) by nra. set (w := l * / h) in *. nra. }
    unfold c in H. rewrite Cl in H. apply le_IZR in H. unfold u64_max in H. lia.
  - apply Rmult_le_reg_r with c; [lra|]. unfold Rdiv at 1. rewrite Rmult_assoc, Rinv_l, Rmult_1_r by lra. unfold Rdiv in Cl.
    assert (M : 1.00205 * h * (32768 * l * / h * (1 - 32 * eps) - 1) <= 1.00205 * h * c) by (apply Rmult_le_compat_l; lra).
    replace (1.00205 * h * (32768 * l * / h * (1 - 32 * eps) - 1)) with (1.00205 * (h * / h) * (32768 * l) * (1 - 32 * eps) - 1.00205 * h) in M by ring. rewrite hh in M. nra.
Qed.

Lemma v2_filter_ideal L p b n : libm_accurate L -> libm_ln2 L -> fpp_in_range p = true -> sf_R (sf_of_bits p) <= / 2 -> rl p / ln 2 <= 46 ->
  (0 < b)%nat -> (n <= N.to_nat (v2_bucket_cap L p) * b)%nat -> let h := rl p / ln 2 in
  ideal_filter_rate b (N.to_nat 32768) (N.to_nat (v2_n_hash0 L p)) n <=
  sf_R (sf_of_bits p) * exp (3 / (4 * h) + h * h / 3000 + (h + 1) ^ 4 / (80000 * h)).
Proof.
  intros HL H2 Hp P H46 Pb Hn h. destruct (h_bounds p Hp P) as [R HB]. destruct (v2_sizing L p HL H2 Hp R) as [C15 [Cu K]]. pose proof (v2_x_tight L p HL Hp P H46) as X.
  fold h in HB, X, H46. pose proof ln2_num as [Lo Hi]. pose proof eps_small as [Pe Se].
  assert (e : 32 * eps <= / 10000000). { assert (Eq : eps = / 9007199254740992) by reflexivity. rewrite Eq. lra. }
  apply Rle_trans with (1 := filter_upper b (N.to_nat 32768) (N.to_nat (v2_n_hash0 L p)) n Pb ltac:(lia)).
  rewrite (p_exp p Hp) at 1. rewrite <- exp_plus. apply exp_le. rewrite !INR_N. change (IZR (Z.of_N 32768)) with 32768. replace (32768 - 1) with 32767 by lra.
  assert (Hn' : INR n / INR b <= IZR (Z.of_N (v2_bucket_cap L p))).
  { apply le_INR in Hn. rewrite mult_INR, INR_N in Hn. assert (b0 : 0 < INR b) by (apply lt_0_INR; lia). apply Rmult_le_reg_r with (INR b); [exact b0|].
    unfold Rdiv. rewrite Rmult_assoc, Rinv_l, Rmult_1_r by lra. exact Hn. }
  set (c := IZR (Z.of_N (v2_bucket_cap L p))) in *. set (k := IZR (Z.of_N (v2_n_hash0 L p))) in *. set (l := ln 2) in *.
  assert (Q : l * ((k - 32767 * l / c) * (k - 32767 * l / c) / (32767 * l / c) - 32767 * l / c) + 2 * (k * k) / 32768 <= - rl p + (3 / (4 * h) + h * h / 3000)).
  { apply exponent_bound; auto; fold l h; lra. }
  replace (l * ((k - 32767 * l / c) * (k - 32767 * l / c) / (32767 * l / c) - 32767 * l / c)) with (k * k / 32767 * c - 2 * k * l) in Q by (field; lra).
  set (x := 32768 * l / c) in *. set (B := k * k / 32767) in *.
  assert (x0 : 0 < x) by (apply Rmult_lt_0_compat; [lra|apply Rinv_0_lt_compat; lra]).
  assert (K1 : k <= 1.00206 * (h + 1)). { assert (x * (11 * eps) <= 50 * (11 * eps)) by (apply Rmult_le_compat_r; lra). nra. }
  assert (K0 : 0 <= k) by nra.
  assert (B0 : 0 <= B) by (unfold B; apply Rmult_le_pos; [apply Rle_0_sqr|lra]).
  assert (KK : k * k <= (1.00206 * (h + 1)) * (1.00206 * (h + 1))) by (apply Rmult_le_compat; lra).
  assert (HH : (h + 1) * (h + 1) <= 47 * 47) by (apply Rmult_le_compat; lra).
  assert (B1 : B <= 1.00413 * ((h + 1) * (h + 1)) / 32767) by (unfold B; replace (1.00206 * (h + 1) * (1.00206 * (h + 1))) with (1.00206 * 1.00206 * ((h + 1) * (h + 1))) in KK by ring; pose proof (Rle_0_sqr (h + 1)) as SQ; unfold Rsqr in SQ; set (g := (h + 1) * (h + 1)) in *; clearbody g; lra).
  assert (B2 : B <= 0.072) by (set (g := (h + 1) * (h + 1)) in *; clearbody g; lra).
  pose proof (exp_quad B (conj B0 B2)) as EQ.
  assert (S1 : INR n / INR b * (exp B - 1) <= c * B + c * (0.582 * (B * B))).
  { apply Rle_trans with (c * (exp B - 1)); [apply Rmult_le_compat_r; [pose proof (exp_ge_1 B); lra|exact Hn']|].
    rewrite <- Rmult_plus_distr_l. apply Rmult_le_compat_l; lra. }
  assert (BB : B * B <= (1.00413 * ((h + 1) * (h + 1)) / 32767) * (1.00413 * ((h + 1) * (h + 1)) / 32767)) by (apply Rmult_le_compat; lra).
  assert (C1 : c <= 22715.1 * / h).
  { apply Rmult_le_reg_r with h; [lra|]. rewrite Rmult_assoc, Rinv_l by lra. unfold h. apply Rmult_le_reg_r with l; [lra|].
    replace (c * (rl p / l) * l) with (c * rl p) by (field; lra). apply Rle_trans with (1 := Cu). unfold s2. fold l. rewrite Rmult_1_r, <- Rmult_assoc.
    replace (32768 * l * l * (1 + 32 * eps)) with (32768 * l * (1 + 32 * eps) * l) by ring. apply Rmult_le_compat_r; [lra|].
    apply Rle_trans with (32768 * 0.6932 * (1 + / 1000000)); [|lra]. apply Rmult_le_compat; lra. }
  assert (Ih : 0 < / h) by (apply Rinv_0_lt_compat; lra).
  assert (S2 : c * (0.582 * (B * B)) <= (h + 1) ^ 4 / (80000 * h)).
  { apply Rle_trans with (22715.1 * / h * (0.582 * ((1.00413 * ((h + 1) * (h + 1)) / 32767) * (1.00413 * ((h + 1) * (h + 1)) / 32767)))).
    - apply Rmult_le_compat; [lra|apply Rmult_le_pos; [lra|apply Rle_0_sqr]|exact C1|apply Rmult_le_compat_l; lra].
    - replace ((h + 1) ^ 4 / (80000 * h)) with (/ 80000 * ((h + 1) ^ 4 * / h)) by (field; lra).
      replace (22715.1 * / h * (0.582 * ((1.00413 * ((h + 1) * (h + 1)) / 32767) * (1.00413 * ((h + 1) * (h + 1)) / 32767)))) with (22715.1 * 0.582 * (1.00413 / 32767) * (1.00413 / 32767) * ((h + 1) ^ 4 * / h)) by (field; lra).
      apply Rmult_le_compat_r; [apply Rmult_le_pos; [apply pow_le; lra|lra]|lra]. }
  lra.
Qed.

(** For rates not below 2^-30 the correction is at most a factor 9/4. *)
Lemma v2_correction h : 1 <= h <= 30 -> exp (3 / (4 * h) + h * h / 3000 + (h + 1) ^ 4 / (80000 * h)) <= 9 / 4.
Proof.
  intro H. apply Rle_trans with (exp (INR 8 * 0.095)).
  - apply exp_le. assert (Ih : 0 < / h) by (apply Rinv_0_lt_compat; lra).
    replace (3 / (4 * h) + h * h / 3000 + (h + 1) ^ 4 / (80000 * h)) with ((3 / 4 + h * (h * h) / 3000 + (h + 1) ^ 4 / 80000) * / h) by (field; lra).
    apply Rmult_le_reg_r with h; [lra|]. rewrite Rmult_assoc, Rinv_l, Rmult_1_r by lra. cbn [INR].
    assert (h2 : h * h <= 31 * h - 30) by nra. assert (h3 : h * (h * h) <= 931 * h - 930) by nra.
    assert (g2 : (h + 1) * (h + 1) <= 33 * (h + 1) - 62) by nra.
    assert (g4 : ((h + 1) * (h + 1)) * ((h + 1) * (h + 1)) <= 31845 * (h + 1) - 63674).
    { apply Rle_trans with ((33 * (h + 1) - 62) * (33 * (h + 1) - 62)); [apply Rmult_le_compat; try lra; apply Rle_0_sqr|nra]. }
    replace ((h + 1) ^ 4) with (((h + 1) * (h + 1)) * ((h + 1) * (h + 1))) by ring. lra.
  - rewrite <- exp_pow. apply Rle_trans with ((/ 0.905) ^ 8); [|lra]. apply pow_incr. split; [apply Rlt_le, exp_pos|].
    replace 0.095 with (- - 0.095) by lra. rewrite exp_Ropp. apply Rinv_le_contravar; [lra|]. pose proof (exp_ge_1 (- 0.095)). lra.
Qed.
