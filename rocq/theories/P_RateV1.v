(** Real analysis of the sizes of v1 filters. *)
From Coq Require Import Lia Reals Lra.
From Verif Require Import M_V2 M_V1 Spec_Bits Spec_Hash Spec_V2 Spec_V2File Spec_Libm Spec_Real P_Base P_V2 P_V2Make P_V2Size.
From Flocq Require Import Core BinarySingleNaN.
From Verif Require Import P_Float P_FloatDiv P_Real P_RealLibm P_Geom.
Open Scope R_scope.

From Verif Require Import Spec_Rate P_Rate P_RateFloat.

(** The same for a v1 filter of [m] bits for [n] entries. *)
Lemma v1_exponent m n k r : let l := ln 2 in let h := r / l in let x := l * m / n in let u := (m - 1) * l / n in let o := n * r / s2 in
  1000 <= n -> 0 < r -> 1 <= h <= 1022 -> o * (1 - 32 * eps) - 1 < m -> m <= o * (1 + 32 * eps) ->
  x * (1 - 11 * eps) <= k <= 1 + x * (1 + 11 * eps) ->
  0 < u /\ l * ((k - u) * (k - u) / u - u) + 2 * (k * k) / m <= - r + (3 / (4 * h) + 7 * h / n).
Proof.
  cbv zeta. intros N R H Ml Mu K. pose proof ln2_num as [Lo Hi]. unfold s2 in *. set (l := ln 2) in *.
  assert (e : 32 * eps <= / 100000000000000). { assert (Eq : eps = / 9007199254740992) by reflexivity. rewrite Eq. lra. } pose proof eps_small as [Pe _].
  set (h := r / l) in *. assert (Er : r = h * l) by (unfold h; field; lra).
  assert (In : 0 < / n <= / 1000) by (split; [apply Rinv_0_lt_compat; lra|apply Rinv_le_contravar; lra]). assert (nn : n * / n = 1) by (apply Rinv_r; lra).
  assert (Eo : n * r / (l * l) = n * h / l) by (rewrite Er; field; lra). rewrite Eo in *. clear Eo.
  set (q := l * m / n) in *. (* q = x *)
  assert (Eq : m = n * q / l) by (unfold q; field; lra).
  assert (Q1 : q <= h * (1 + 32 * eps)). { unfold q. apply Rmult_le_reg_r with (n / l); [apply Rmult_lt_0_compat; [lra|apply Rinv_0_lt_compat; lra]|]. replace (l * m / n * (n / l)) with m by (field; lra). apply Rle_trans with (1 := Mu). apply Req_le. field. lra. }
  assert (Q2 : h * (1 - 32 * eps) - l * / n < q). { unfold q. apply Rmult_lt_reg_r with (n / l); [apply Rmult_lt_0_compat; [lra|apply Rinv_0_lt_compat; lra]|]. replace (l * m / n * (n / l)) with m by (field; lra). apply Rle_lt_trans with (2 := Ml). apply Req_le. field. lra. }
  replace ((m - 1) * l / n) with (q - l * / n) by (unfold q; field; lra). set (d := l * / n) in *. assert (D : 0 < d <= 0.0006932) by (unfold d; nra).
  set (u := q - d). assert (U : h * (1 - / 700) <= u) by (unfold u; nra). split; [nra|]. assert (Pu : 0 < u) by nra. assert (Pq : 0 < q) by nra.
  assert (K0 : 0 <= k) by nra. assert (K2 : k <= 201 / 100 * h) by nra.
  assert (S : -1 <= k - u <= 1 + / 1400) by (unfold u; nra).
  assert (SS : (k - u) * (k - u) <= 1.0015) by nra.
  assert (Ih : 0 < / h <= 1) by (split; [apply Rinv_0_lt_compat; lra|rewrite <- Rinv_1; apply Rinv_le_contravar; lra]). assert (hh : h * / h = 1) by (apply Rinv_r; lra).
  assert (T1 : 2 * (k * k) / m <= 5.7 * (h * / n)).
  { assert (Mm : 1.43 * (n * h) <= m). { rewrite Eq. unfold Rdiv. assert (Il : 1.442 <= / l) by (apply Rmult_le_reg_r with l; [lra|]; rewrite Rinv_l by lra; lra). assert (0.998 * h <= q) by (unfold u in U; nra).
      assert (NQ : 0.998 * (n * h) <= n * q) by (replace (0.998 * (n * h)) with (n * (0.998 * h)) by ring; apply Rmult_le_compat_l; lra). assert (NH : 0 <= n * h) by (apply Rmult_le_pos; lra).
      apply Rle_trans with (0.998 * (n * h) * 1.442); [lra|]. apply Rmult_le_compat; lra. }
    assert (Pm : 0 < n * h) by (apply Rmult_lt_0_compat; lra). apply Rmult_le_reg_r with m; [lra|]. unfold Rdiv. rewrite Rmult_assoc, Rinv_l, Rmult_1_r by lra.
    assert (KK : k * k <= (201 / 100 * h) * (201 / 100 * h)) by (apply Rmult_le_compat; lra).
    assert (5.7 * (h * / n) * (1.43 * (n * h)) <= 5.7 * (h * / n) * m) by (apply Rmult_le_compat_l; [|exact Mm]; apply Rmult_le_pos; [lra|apply Rmult_le_pos; lra]).
    replace (5.7 * (h * / n) * (1.43 * (n * h))) with (5.7 * 1.43 * (h * h) * (n * / n)) in H0 by ring. rewrite nn in H0. nra. }
  assert (T2 : - (l * u) <= - r + 0.962 * / n + / 10000000000).
  { unfold u. rewrite Er. assert (A1 : l * (h * (1 - 32 * eps) - d) <= l * q) by (apply Rmult_le_compat_l; lra).
    assert (A2 : l * d <= 0.481 * / n). { unfold d. rewrite <- Rmult_assoc. apply Rmult_le_compat_r; [lra|]. apply Rle_trans with (0.6932 * 0.6932); [apply Rmult_le_compat; lra|lra]. }
    assert (A3 : l * (h * (32 * eps)) <= / 10000000000). { apply Rle_trans with (0.6932 * (1022 * / 100000000000000)); [|lra]. apply Rmult_le_compat; [lra|apply Rmult_le_pos; lra|lra|]. apply Rmult_le_compat; lra. }
    replace (l * (h * (1 - 32 * eps) - d)) with (h * l - l * (h * (32 * eps)) - l * d) in A1 by ring. replace (- (l * (q - d))) with (l * d - l * q) by ring. lra. }
  assert (T3 : l * ((k - u) * (k - u) / u) <= 0.697 * / h).
  { assert (Iu : 0 < / u) by (apply Rinv_0_lt_compat; lra). assert (Du : / u <= / h * (1 + / 690)).
    { apply Rle_trans with (/ (h * (1 - / 700))); [apply Rinv_le_contravar; nra|]. rewrite Rinv_mult. apply Rmult_le_compat_l; lra. }
    apply Rle_trans with (0.6932 * (1.0015 * (/ h * (1 + / 690)))); [|lra].
    apply Rmult_le_compat; [lra|apply Rmult_le_pos; [apply Rle_0_sqr|lra]|lra|]. apply Rmult_le_compat; [apply Rle_0_sqr|lra|exact SS|exact Du]. }
  replace (3 / (4 * h)) with (3 / 4 * / h) by (field; lra). replace (7 * h / n) with (7 * (h * / n)) by (field; lra).
  assert (/ 1022 <= / h) by (apply Rinv_le_contravar; lra). assert (/ n <= h * / n) by (rewrite <- (Rmult_1_l (/ n)) at 1; apply Rmult_le_compat_r; lra).
  replace (l * ((k - u) * (k - u) / u - u)) with (l * ((k - u) * (k - u) / u) - l * u) by ring. lra.
Qed.

Lemma v1_design L cap p : libm_accurate L -> libm_ln2 L -> fpp_in_range p = true -> sf_R (sf_of_bits p) <= / 2 -> (1000 <= cap)%N -> (cap < two64)%N ->
  let m := bu_bit_size L cap p in let h := rl p / ln 2 in m <> u64_max ->
  let K := INR (N.to_nat (bu_k L m cap)) in let u := (INR (N.to_nat m) - 1) * ln 2 / INR (N.to_nat cap) in
  (1 < N.to_nat m)%nat /\ 7 / 10 * K * INR (N.to_nat cap) <= INR (N.to_nat m) /\
  ln 2 * ((K - u) * (K - u) / u - u) + 2 * (K * K) / INR (N.to_nat m) <= - rl p + (3 / (4 * h) + 7 * h / IZR (Z.of_N cap)).
Proof.
  intros HL H2 Hp P Hc Hc' m h Hm K u. destruct (h_bounds p Hp P) as [R HB]. fold h in HB. pose proof eps_small as [Pe Se]. pose proof ln2_num as [Lo Hi].
  destruct (bit_size_real L cap p HL Hp Hc') as [Mu Ml]. cbv zeta in Mu, Ml. fold m in Mu, Ml. destruct Ml as [Ml|Ml]; [congruence|].
  assert (c1000 : 1000 <= IZR (Z.of_N cap)) by (apply IZR_le; lia). set (c := IZR (Z.of_N cap)) in *.
  assert (Eo : c * rl p / s2 = c * h / ln 2) by (unfold h, s2; field; lra). 
  assert (Il : 1.442 <= / ln 2) by (apply Rmult_le_reg_r with (ln 2); [lra|]; rewrite Rinv_l by lra; lra).
  assert (CH : 1000 <= c * h) by (apply Rle_trans with (1000 * 1); [lra|apply Rmult_le_compat; lra]).
  assert (O : 1442 <= c * rl p / s2). { rewrite Eo. unfold Rdiv. apply Rle_trans with (1000 * 1.442); [lra|apply Rmult_le_compat; lra]. }
  set (o := c * rl p / s2) in *.
  assert (M1 : 1000 <= IZR (Z.of_N m)). { assert (A : o * (32 * eps) <= o * / 4) by (apply Rmult_le_compat_l; lra). replace (o * (1 - 32 * eps)) with (o - o * (32 * eps)) in Ml by ring. lra. }
  assert (m1 : (1000 <= m)%N). { apply N2Z.inj_le. apply le_IZR. exact M1. }
  assert (mlt : (m < two64)%N) by apply f_to_u64_lt.
  destruct (k_real L m cap H2 ltac:(lia) mlt ltac:(lia) Hc') as (Q & [Q1 Q2] & E). fold c in Q1, Q2. set (x := ln 2 * IZR (Z.of_N m) / c) in *.
  assert (X : 0 < x <= 2000).
  { split; [apply Rmult_lt_0_compat; [apply Rmult_lt_0_compat; lra|apply Rinv_0_lt_compat; lra]|].
    assert (Mo : IZR (Z.of_N m) <= o * (3 / 2)). { apply Rle_trans with (1 := Mu). apply Rmult_le_compat_l; lra. }
    rewrite Eo in Mo. apply Rmult_le_reg_r with (c / ln 2); [apply Rmult_lt_0_compat; [lra|apply Rinv_0_lt_compat; lra]|].
    unfold x. replace (ln 2 * IZR (Z.of_N m) / c * (c / ln 2)) with (IZR (Z.of_N m)) by (field; lra). apply Rle_trans with (1 := Mo).
    replace (c * h / ln 2 * (3 / 2)) with (h * (3 / 2) * (c / ln 2)) by (field; lra). apply Rmult_le_compat_r; [apply Rmult_le_pos; [lra|left; apply Rinv_0_lt_compat; lra]|lra]. }
  pose proof (Zceil_up Q) as U. pose proof (Zceil_ub Q) as V.
  assert (Z0 : (0 <= Zceil Q)%Z) by (apply le_IZR; nra). assert (Z1 : (Zceil Q <= 5000)%Z) by (apply le_IZR; nra).
  rewrite Z.min_r in E by lia.
  destruct (v1_exponent (IZR (Z.of_N m)) c (IZR (Z.of_N (bu_k L m cap))) (rl p)) as [_ B]; auto. { fold x. rewrite E. lra. }
  split; [lia|]. unfold u, K. rewrite !INR_N. split; [|exact B]. fold c.
  assert (Mc : 1.42 * c <= IZR (Z.of_N m)).
  { apply Rle_trans with (o * (1 - 32 * eps) - 1); [|lra]. assert (Oc : 1.442 * c <= o). { rewrite Eo. unfold Rdiv. apply Rle_trans with (c * 1 * 1.442); [lra|]. apply Rmult_le_compat; [lra|lra| |exact Il]. apply Rmult_le_compat_l; lra. }
    assert (e : 32 * eps <= / 10000). { assert (Eq : eps = / 9007199254740992) by reflexivity. rewrite Eq. lra. } nra. }
  assert (Kx : IZR (Z.of_N (bu_k L m cap)) <= 1 + x * (1 + 11 * eps)) by (rewrite E; lra).
  assert (xc : x * c = ln 2 * IZR (Z.of_N m)) by (unfold x; field; lra).
  assert (e : 11 * eps <= / 10000). { assert (Eq : eps = / 9007199254740992) by reflexivity. rewrite Eq. lra. }
  assert (Kc : IZR (Z.of_N (bu_k L m cap)) * c <= c + x * c * (1 + 11 * eps)) by (replace (c + x * c * (1 + 11 * eps)) with ((1 + x * (1 + 11 * eps)) * c) by ring; apply Rmult_le_compat_r; lra).
  rewrite xc in Kc. assert (ln 2 * IZR (Z.of_N m) * (1 + 11 * eps) <= 0.6932 * IZR (Z.of_N m) * (1 + / 10000)) by (apply Rmult_le_compat; nra). lra.
Qed.
Lemma v1_ideal L cap p n : libm_accurate L -> libm_ln2 L -> fpp_in_range p = true -> sf_R (sf_of_bits p) <= / 2 -> (1000 <= cap)%N -> (cap < two64)%N ->
  let m := bu_bit_size L cap p in let h := rl p / ln 2 in m <> u64_max -> (n <= N.to_nat cap)%nat ->
  ideal_rate (N.to_nat m) (N.to_nat (bu_k L m cap)) n <= sf_R (sf_of_bits p) * exp (3 / (4 * h) + 7 * h / IZR (Z.of_N cap)).
Proof.
  intros HL H2 Hp P Hc Hc' m h Hm Hn. destruct (v1_design L cap p HL H2 Hp P Hc Hc' Hm) as [m1 [_ B]]. fold m h in m1, B. cbv zeta in B.
  apply Rle_trans with (1 := ideal_upto (N.to_nat m) (N.to_nat (bu_k L m cap)) n (N.to_nat cap) m1 Hn ltac:(lia)).
  rewrite (p_exp p Hp). rewrite <- exp_plus. apply exp_le. exact B.
Qed.
