(** Number of hash functions and sizes as real numbers, for the false-positive rates. *)
From Coq Require Import Lia Reals Lra.
From Verif Require Import M_V2 M_V1 Spec_Bits Spec_Hash Spec_V2 Spec_V2File Spec_Libm Spec_Real P_Base P_V2 P_V2Make P_V2Size.
From Flocq Require Import Core BinarySingleNaN.
From Verif Require Import P_Float P_FloatDiv P_Real P_RealLibm P_Geom.
Open Scope R_scope.

Lemma fval_ln2 L : libm_ln2 L -> fval (ln2 L) v_ln2.
Proof. intro H. unfold ln2. rewrite H. exact fval_c_ln2. Qed.
Lemma v_ln2_btw : btw v_ln2 (ln 2) 2.
Proof.
  unfold btw, v_ln2. pose proof ln2_bounds as B. assert (E : eps = / 9007199254740992) by reflexivity. fold eps. rewrite E. pose proof ln2_lo as Lo. lra.
Qed.
(** [k bits cap], the number of hash functions. *)
Lemma k_real L bits cap : libm_ln2 L -> (1 <= bits)%N -> (bits < two64)%N -> (1 <= cap)%N -> (cap < two64)%N ->
  exists Q, btw Q (ln 2 * IZR (Z.of_N bits) / IZR (Z.of_N cap)) 11 /\ Z.of_N (bu_k L bits cap) = Z.min (2 ^ 64 - 1) (Zceil Q).
Proof.
  intros HL B1 B2 C1 C2. pose proof (fval_ln2 L HL) as FL. pose proof v_ln2_btw as BL. pose proof ln2_lo as Lo. pose proof ln2_hi as Hi.
  assert (b1 : 1 <= IZR (Z.of_N bits)) by (apply IZR_le; lia). assert (c1 : 1 <= IZR (Z.of_N cap)) by (apply IZR_le; lia).
  assert (b1000 : bpow radix2 (-1000) <= bpow radix2 0) by (apply bpow_le; lia). change (bpow radix2 0) with 1 in b1000.
  assert (BB : btw (rnd (IZR (Z.of_N bits))) (IZR (Z.of_N bits)) 1) by (apply btw_rnd; lra).
  assert (BC : btw (rnd (IZR (Z.of_N cap))) (IZR (Z.of_N cap)) 1) by (apply btw_rnd; lra).
  pose proof (rnd_u64_bounds bits B2) as [_ A2]. pose proof (rnd_u64_bounds cap C2) as [_ D2].
  assert (A3 : 1 <= rnd (IZR (Z.of_N bits))) by (apply rnd_ge_1; lia). assert (D3 : 1 <= rnd (IZR (Z.of_N cap))) by (apply rnd_ge_1; lia).
  pose proof (fval_of_u64 bits B2) as FB. pose proof (fval_of_u64 cap C2) as FC.
  set (b := rnd (IZR (Z.of_N bits))) in *. set (c := rnd (IZR (Z.of_N cap))) in *.
  assert (V : / 4 <= v_ln2 <= 2) by (unfold btw in BL; pose proof eps_small; nra).
  assert (P64 : bpow radix2 64 <= bpow radix2 1000) by (apply bpow_le; lia). pose proof (bpow_gt_0 radix2 64) as G64.
  assert (S1 : bpow radix2 (-1000) <= / 4) by (change (/ 4) with (bpow radix2 (-2)); apply bpow_le; lia).
  assert (T1023 : 2 * bpow radix2 64 <= bpow radix2 1000) by (change 2 with (bpow radix2 1) at 1; rewrite <- bpow_plus; apply bpow_le; lia).
  assert (T1 : bpow radix2 1000 <= bpow radix2 1023) by (apply bpow_le; lia).
  assert (M1 : / 4 <= v_ln2 * b) by nra. assert (M2 : v_ln2 * b <= bpow radix2 1000) by nra.
  assert (FM : fval (f_mul (ln2 L) (f_of_u64 bits)) (rnd (v_ln2 * b))).
  { apply fval_mul; [exact FL|exact FB|]. rewrite Rabs_pos_eq by lra. lra. }
  assert (BM : btw (rnd (v_ln2 * b)) (ln 2 * IZR (Z.of_N bits)) 6).
  { replace 6 with (1 + (2 + 1 + 1) + 1) by ring. apply btw_trans with (v_ln2 * b); [apply btw_rnd; lra| |apply Rmult_lt_0_compat; lra|lra|lra].
    apply btw_mul; [exact BL|exact BB|lra|lra|lra|lra]. }
  assert (M3 : / 4 <= rnd (v_ln2 * b)). { rewrite <- (rnd_format (/ 4)); [apply rnd_le, M1|]. replace (/ 4) with (IZR 1 * bpow radix2 (-2)) by (change (bpow radix2 (-2)) with (/ 4); lra). apply format_spec; lia. }
  assert (M4 : rnd (v_ln2 * b) <= bpow radix2 1000). { rewrite <- (rnd_format (bpow radix2 1000)); [apply rnd_le, M2|]. replace (bpow radix2 1000) with (IZR 1 * bpow radix2 1000) by lra. apply format_spec; lia. }
  set (a := rnd (v_ln2 * b)) in *.
  assert (Q1 : a / c <= bpow radix2 1000).
  { apply Rmult_le_reg_r with c; [lra|]. unfold Rdiv. rewrite Rmult_assoc, Rinv_l, Rmult_1_r by lra. pose proof (bpow_gt_0 radix2 1000). nra. }
  assert (Q2 : bpow radix2 (-66) <= a / c).
  { apply Rmult_le_reg_r with c; [lra|]. unfold Rdiv. rewrite Rmult_assoc, Rinv_l, Rmult_1_r by lra.
    apply Rle_trans with (bpow radix2 (-66) * bpow radix2 64). apply Rmult_le_compat_l; [apply bpow_ge_0|lra].
    rewrite <- bpow_plus. change (bpow radix2 (-66 + 64)) with (/ 4). lra. }
  assert (Q3 : bpow radix2 (-1000) <= bpow radix2 (-66)) by (apply bpow_le; lia). pose proof (bpow_gt_0 radix2 (-66)) as P66.
  assert (FQ : fval (f_div (f_mul (ln2 L) (f_of_u64 bits)) (f_of_u64 cap)) (rnd (a / c))).
  { apply fval_div; auto. lra. rewrite Rabs_pos_eq by lra. lra. }
  assert (W0 : 0 < ln 2 * IZR (Z.of_N bits)) by (apply Rmult_lt_0_compat; lra).
  assert (W : 0 < ln 2 * IZR (Z.of_N bits) / IZR (Z.of_N cap)). { apply Rmult_lt_0_compat; [exact W0|]. apply Rinv_0_lt_compat. lra. }
  exists (rnd (a / c)). split.
  - assert (BQ : btw (a / c) (ln 2 * IZR (Z.of_N bits) / IZR (Z.of_N cap)) 9).
    { unfold Rdiv. replace 9 with (6 + (1 + 1) + 1) by ring. apply btw_mul; [exact BM|apply btw_inv; [exact BC|lra|lra]|exact W0|apply Rinv_0_lt_compat; lra|lra|lra]. }

    replace 11 with (1 + 9 + 1) by ring. apply btw_trans with (a / c); [apply btw_rnd; lra|exact BQ|exact W|lra|lra].
  - unfold bu_k. assert (R0 : 0 <= rnd (a / c)) by (pose proof (rnd_pos (a / c) ltac:(lra)); pose proof (bpow_gt_0 radix2 (-1000)); lra).
    rewrite (fval_to_u64 _ _ (fval_ceil _ _ FQ)); [rewrite Zfloor_IZR; reflexivity|]. apply IZR_le. apply le_IZR. apply Rle_trans with (rnd (a / c)); [exact R0|apply Zceil_ub].
Qed.

From Verif Require Import Spec_Rate P_Rate.
Lemma INR_N n : INR (N.to_nat n) = IZR (Z.of_N n).
Proof. rewrite INR_IZR_INZ, N_nat_Z. reflexivity. Qed.
Lemma n_hash0_k L p : (bu_k L bucket_bit_size (v2_bucket_cap L p) <= 9007199254740992)%N -> v2_n_hash0 L p = bu_k L bucket_bit_size (v2_bucket_cap L p).
Proof.
  intro H. unfold v2_n_hash0. set (k := bu_k L bucket_bit_size (v2_bucket_cap L p)) in *. apply N2Z.inj.
  pose proof (fval_of_u64 k ltac:(unfold two64; lia)) as F. rewrite (rnd_format (IZR (Z.of_N k))) in F by (apply format_int; lia).
  rewrite (fval_to_u64 _ _ (fval_ceil _ _ F)) by (rewrite Zceil_IZR; apply IZR_le; lia). rewrite Zceil_IZR, Zfloor_IZR. lia.
Qed.
Lemma Zceil_up x : IZR (Zceil x) < x + 1.
Proof. unfold Zceil. rewrite opp_IZR. pose proof (Zfloor_ub (- x)). lra. Qed.
(** What the sizing of a v2 filter gives: the bucket capacity [c] and the number [k] of hash functions, with
    x = 32768 ln 2 / c. *)
Lemma v2_sizing L p : libm_accurate L -> libm_ln2 L -> fpp_in_range p = true -> 0 < rl p ->
  let c := IZR (Z.of_N (v2_bucket_cap L p)) in let k := IZR (Z.of_N (v2_n_hash0 L p)) in let x := 32768 * ln 2 / c in
  15 <= c /\ c * rl p <= 32768 * s2 * (1 + 32 * eps) /\ x * (1 - 11 * eps) <= k <= 1 + x * (1 + 11 * eps).
Proof.
  intros HL H2 Hp P. destruct (bucket_cap_real L p HL Hp P) as [C15 [Cu _]]. cbv zeta. pose proof (bucket_cap_lt L p) as Clt. pose proof eps_small as [Pe Se].
  assert (c15 : 15 <= IZR (Z.of_N (v2_bucket_cap L p))) by (apply IZR_le; lia).
  split; [exact c15|]. split.
  - unfold bopt in Cu. apply Rmult_le_compat_r with (r := rl p) in Cu; [|lra]. apply Rle_trans with (1 := Cu). apply Req_le. field. lra.
  - destruct (k_real L bucket_bit_size (v2_bucket_cap L p) H2 ltac:(vm_compute; discriminate) ltac:(vm_compute; reflexivity) ltac:(lia) Clt) as (Q & [Q1 Q2] & E).
    change (IZR (Z.of_N bucket_bit_size)) with 32768 in Q1, Q2. replace (ln 2 * 32768) with (32768 * ln 2) in Q1, Q2 by ring.
    set (c := IZR (Z.of_N (v2_bucket_cap L p))) in *. set (x := 32768 * ln 2 / c) in *. pose proof ln2_lo. pose proof ln2_hi.
    assert (X : 0 < x <= 2185).
    { split; [apply Rmult_lt_0_compat; [lra|apply Rinv_0_lt_compat; lra]|]. unfold x. apply Rmult_le_reg_r with c; [lra|]. unfold Rdiv. rewrite Rmult_assoc, Rinv_l, Rmult_1_r by lra. nra. }
    pose proof (Zceil_up Q) as U. pose proof (Zceil_ub Q) as V.
    assert (Z0 : (0 <= Zceil Q)%Z) by (apply le_IZR; nra). assert (Z1 : (Zceil Q <= 3000)%Z) by (apply le_IZR; nra).
    rewrite (n_hash0_k L p); rewrite Z.min_r in E by lia; [|lia]. rewrite E. lra.
Qed.
Lemma ln2_num : 0.6931 < ln 2 < 0.6932.
Proof. pose proof ln2_bounds. lra. Qed.
Lemma p_exp p : fpp_in_range p = true -> sf_R (sf_of_bits p) = exp (- rl p).
Proof. intro H. destruct (fpp_real p H) as [_ [A _]]. pose proof (bpow_gt_0 radix2 (-1022)). unfold rl. rewrite Ropp_involutive, exp_ln by lra. reflexivity. Qed.
Lemma u_bounds c r : 15 <= c -> 0 < r -> c * r <= 32768 * s2 * (1 + 32 * eps) -> r * (1 - / 32000) <= ln 2 * (32767 * ln 2 / c).
Proof.
  intros C R H. pose proof s2_bounds as S. pose proof eps_small as [Pe Se]. assert (E : ln 2 * (32767 * ln 2 / c) = 32767 * s2 / c) by (unfold s2; field; lra). rewrite E.
  apply Rmult_le_reg_r with c; [lra|]. unfold Rdiv. rewrite Rmult_assoc, (Rmult_assoc _ (/ c)), Rinv_l, Rmult_1_r by lra.
  assert (e : 32 * eps <= / 10000000). { assert (Eq : eps = / 9007199254740992) by reflexivity. rewrite Eq. lra. }
  assert (c * r <= 32768 * s2 * (1 + / 10000000)) by nra. nra.
Qed.
(** The exponent that remains over the requested rate [exp (- r)]. *)
Lemma exponent_bound c k r : let l := ln 2 in let x := 32768 * l / c in let u := 32767 * l / c in let h := r / l in
  15 <= c -> 0 < r -> 1 <= h <= 2000 -> c * r <= 32768 * s2 * (1 + 32 * eps) -> x <= 21 / 20 * h ->
  x * (1 - 11 * eps) <= k <= 1 + x * (1 + 11 * eps) ->
  l * ((k - u) * (k - u) / u - u) + 2 * (k * k) / 32768 <= - r + (3 / (4 * h) + h * h / 3000).
Proof.
  cbv zeta. intros C R H1 H2 X K. pose proof ln2_num as [Lo Hi]. pose proof (u_bounds c r C R H2) as U. set (l := ln 2) in *.
  assert (e : 11 * eps <= / 10000000). { assert (Eq : eps = / 9007199254740992) by reflexivity. rewrite Eq. lra. } pose proof eps_small as [Pe _].
  set (u := 32767 * l / c) in *. set (x := 32768 * l / c) in *. assert (Ex : x = u * (32768 / 32767)) by (unfold x, u; field; lra).
  set (h := r / l) in *. assert (Er : r = h * l) by (unfold h; field; lra). destruct H1 as [H1 H1'].
  assert (Eu : h * (1 - / 32000) <= u). { rewrite Er in U. apply Rmult_le_reg_l with l; [lra|]. lra. }
  assert (Px : 0 < x) by nra. assert (Pu : 0 < u) by nra.
  assert (S0 : 0 <= k - u) by nra. assert (S1 : k - u <= 1 + h * (/ 30000)) by nra.
  assert (K2 : k <= 206 / 100 * h) by nra. assert (K0 : 0 <= k) by nra.
  assert (T1 : 2 * (k * k) / 32768 <= h * h * (/ 3860)). { assert (k * k <= (206 / 100 * h) * (206 / 100 * h)) by (apply Rmult_le_compat; lra). replace (206 / 100 * h * (206 / 100 * h)) with (42436 / 10000 * (h * h)) in H by field. assert (0 <= h * h) by nra. lra. }
  assert (T2 : - (l * u) <= - r + h * h * (/ 45000)). { assert (r <= 0.6932 * (h * h)) by (rewrite Er; nra). lra. }
  assert (T3 : l * ((k - u) * (k - u) / u) <= 3 / (4 * h) + h * h * (/ 19400)).
  { assert (SS : (k - u) * (k - u) <= 1 + h * (/ 14000)).
    { apply Rle_trans with ((1 + h * / 30000) * (1 + h * / 30000)); [apply Rmult_le_compat; lra|]. nra. }
    assert (D : / u <= / h * (1 + / 30000)).
    { apply Rle_trans with (/ (h * (1 - / 32000))); [apply Rinv_le_contravar; nra|]. rewrite Rinv_mult. apply Rmult_le_compat_l; [left; apply Rinv_0_lt_compat; lra|lra]. }
    assert (I1 : 0 < / h <= 1) by (split; [apply Rinv_0_lt_compat; lra|rewrite <- Rinv_1; apply Rinv_le_contravar; lra]).
    assert (Iu : 0 < / u) by (apply Rinv_0_lt_compat; lra).
    apply Rle_trans with (0.6932 * ((1 + h * / 14000) * (/ h * (1 + / 30000)))).
    - apply Rmult_le_compat; [lra|apply Rmult_le_pos; [apply Rle_0_sqr|lra]|lra|]. apply Rmult_le_compat; [apply Rle_0_sqr|lra|exact SS|exact D].
    - replace (3 / (4 * h)) with (3 / 4 * / h) by (field; lra). assert (h * / h = 1) by (apply Rinv_r; lra). assert (1 <= h * h) by nra. nra. }
  assert (Ef : h * h / 3000 = h * h * / 3860 + h * h * / 45000 + h * h * (/ 3000 - / 3860 - / 45000)) by field.
  assert (h * h * / 19400 <= h * h * (/ 3000 - / 3860 - / 45000)) by (apply Rmult_le_compat_l; nra). lra.
Qed.
(** The base-2 logarithm of the inverse of the requested rate: the optimal number of hash functions. *)
Lemma h_bounds p : fpp_in_range p = true -> sf_R (sf_of_bits p) <= / 2 -> 0 < rl p /\ 1 <= rl p / ln 2 <= 1022.
Proof.
  intros Hp P. pose proof (ln_fpp p Hp) as [_ B]. fold (rl p) in B. destruct (fpp_real p Hp) as [_ [A _]]. pose proof (bpow_gt_0 radix2 (-1022)). pose proof ln2_num.
  assert (ln (sf_R (sf_of_bits p)) <= ln (/ 2)) by (apply ln_le; lra). rewrite ln_Rinv in H1 by lra. assert (ln 2 <= rl p) by (unfold rl; lra).
  split; [lra|]. split; apply Rmult_le_reg_r with (ln 2); try lra; unfold Rdiv; rewrite Rmult_assoc, Rinv_l by lra; lra.
Qed.
Lemma v2_x_bound L p : libm_accurate L -> fpp_in_range p = true -> sf_R (sf_of_bits p) <= / 2 ->
  32768 * ln 2 / IZR (Z.of_N (v2_bucket_cap L p)) <= 21 / 20 * (rl p / ln 2).
Proof.
  intros HL Hp P. destruct (h_bounds p Hp P) as [R [H1 H2]]. destruct (bucket_cap_real L p HL Hp R) as [C15 [Cu Cl]]. pose proof ln2_num as [Lo Hi]. pose proof eps_small as [Pe Se].
  set (c := IZR (Z.of_N (v2_bucket_cap L p))) in *. assert (c15 : 15 <= c) by (apply IZR_le; lia).
  assert (Eb : bopt p = 32768 * ln 2 / (rl p / ln 2)) by (unfold bopt, s2; field; lra). rewrite Eb in *. set (h := rl p / ln 2) in *. set (l := ln 2) in *.
  assert (Ih : 0 < / h <= 1) by (split; [apply Rinv_0_lt_compat; lra|rewrite <- Rinv_1; apply Rinv_le_contravar; lra]). assert (hh : h * / h = 1) by (apply Rinv_r; lra).
  assert (e : 32 * eps <= / 10000000). { assert (Eq : eps = / 9007199254740992) by reflexivity. rewrite Eq. lra. }
  destruct Cl as [Cl|Cl].
  - exfalso. assert (c <= 32768). { apply Rle_trans with (1 := Cu). unfold Rdiv. rewrite (Rmult_assoc 32768). assert (0 <= l * / h <= 0.6932) by nra. set (w := l * / h) in *. nra. }
    unfold c in H. rewrite Cl in H. apply le_IZR in H. unfold u64_max in H. lia.
  - apply Rmult_le_reg_r with c; [lra|]. unfold Rdiv at 1. rewrite Rmult_assoc, Rinv_l, Rmult_1_r by lra. unfold Rdiv in Cl.
    assert (M : 21 / 20 * h * (32768 * l * / h * (1 - 32 * eps) - 1) <= 21 / 20 * h * c) by (apply Rmult_le_compat_l; lra).
    replace (21 / 20 * h * (32768 * l * / h * (1 - 32 * eps) - 1)) with (21 / 20 * (h * / h) * (32768 * l) * (1 - 32 * eps) - 21 / 20 * h) in M by ring. rewrite hh in M. nra.
Qed.
Lemma v2_design L p : libm_accurate L -> libm_ln2 L -> fpp_in_range p = true -> sf_R (sf_of_bits p) <= / 2 ->
  let K := INR (N.to_nat (v2_n_hash0 L p)) in let u := (INR (N.to_nat 32768) - 1) * ln 2 / INR (N.to_nat (v2_bucket_cap L p)) in
  (0 < N.to_nat (v2_bucket_cap L p))%nat /\
  ln 2 * ((K - u) * (K - u) / u - u) + 2 * (K * K) / INR (N.to_nat 32768) <= - rl p + (3 / (4 * (rl p / ln 2)) + (rl p / ln 2) * (rl p / ln 2) / 3000).
Proof.
  intros HL H2 Hp P. destruct (h_bounds p Hp P) as [R HB]. destruct (v2_sizing L p HL H2 Hp R) as [C15 [Cu K]]. pose proof (v2_x_bound L p HL Hp P) as X.
  assert (C0 : (0 < N.to_nat (v2_bucket_cap L p))%nat). { apply INR_lt. rewrite INR_N. cbn [INR]. lra. }
  split; [exact C0|]. rewrite !INR_N. change (IZR (Z.of_N 32768)) with 32768. replace (32768 - 1) with 32767 by lra.
  apply exponent_bound; auto. lra.
Qed.
Lemma v2_ideal L p n : libm_accurate L -> libm_ln2 L -> fpp_in_range p = true -> sf_R (sf_of_bits p) <= / 2 -> (n <= N.to_nat (v2_bucket_cap L p))%nat ->
  ideal_rate (N.to_nat 32768) (N.to_nat (v2_n_hash0 L p)) n <=
  sf_R (sf_of_bits p) * exp (3 / (4 * (rl p / ln 2)) + (rl p / ln 2) * (rl p / ln 2) / 3000).
Proof.
  intros HL H2 Hp P Hn. destruct (v2_design L p HL H2 Hp P) as [C0 B]. cbv zeta in B.
  apply Rle_trans with (1 := ideal_upto (N.to_nat 32768) (N.to_nat (v2_n_hash0 L p)) n (N.to_nat (v2_bucket_cap L p)) ltac:(lia) Hn C0).
  rewrite (p_exp p Hp) at 1. rewrite <- exp_plus. apply exp_le. exact B.
Qed.
Lemma formula_mono m k a b : 0 < m -> 0 <= a <= b -> formula_rate m k a <= formula_rate m k b.
Proof.
  intros M A. unfold formula_rate. assert (I0 : 0 < / m) by (apply Rinv_0_lt_compat, M). pose proof (pos_INR k) as K.
  assert (E0 : exp (- (INR k * a / m)) <= exp 0). { apply exp_le. unfold Rdiv. assert (0 <= INR k * a * / m) by (apply Rmult_le_pos; [apply Rmult_le_pos; lra|lra]). lra. }
  rewrite exp_0 in E0. apply pow_incr. split; [lra|]. assert (exp (- (INR k * b / m)) <= exp (- (INR k * a / m))); [|lra]. apply exp_le, Ropp_le_contravar. unfold Rdiv.
  apply Rmult_le_compat_r; [lra|]. apply Rmult_le_compat_l; lra.
Qed.
