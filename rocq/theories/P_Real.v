(** Real analysis of the sizing formulas, and a math library meeting [libm_accurate]. *)
From Coq Require Import Lia Reals Lra.
From Verif Require Import M_V2 Spec_Bits Spec_Hash Spec_V2 Spec_V2File Spec_Libm Spec_Real P_Base P_V2 P_V2Make P_V2Size.
From Flocq Require Import Core BinarySingleNaN.
From Verif Require Import P_Float P_FloatDiv.
Open Scope R_scope.

Lemma fval_R a x : fval a x -> sf_R a = x.
Proof.
  intros (b & <- & F & <-). destruct b as [s|s| |s m e H]; try discriminate; [reflexivity|].
  cbn [B2SF sf_R B2R]. unfold F2R. cbn [Fnum Fexp]. rewrite bpow_powerRZ. change (IZR radix2) with 2. f_equal.
  destruct s; cbn [cond_Zopp]; [|reflexivity]. rewrite <- opp_IZR. reflexivity.
Qed.
Lemma sf_fin_fval a : sf_fin a -> fval a (sf_R a).
Proof.
  intros [V F]. destruct (valid_fval a V) as (x & Fx).
  - intros ->. exact F.
  - intros s ->. exact F.
  - now rewrite (fval_R _ _ Fx).
Qed.

(** ** ln 2 and the range of ln *)
Lemma ln_le x y : 0 < x -> x <= y -> ln x <= ln y.
Proof. intros P [H| ->]; [|lra]. left. now apply ln_increasing. Qed.
Lemma ln2_lo : / 2 <= ln 2.
Proof.
  left. apply exp_lt_inv. rewrite exp_ln by lra. assert (E : exp (/ 2) * exp (/ 2) = exp 1). { rewrite <- exp_plus. f_equal. lra. }
  pose proof exp_le_3. pose proof (exp_pos (/ 2)). nra.
Qed.
Lemma ln2_hi : ln 2 <= 1.
Proof. rewrite <- (ln_exp 1). apply ln_le; [lra|]. pose proof (exp_ineq1 1 ltac:(lra)). lra. Qed.
Lemma ln_bpow e : ln (bpow radix2 e) = IZR e * ln 2.
Proof.
  rewrite bpow_powerRZ. change (IZR radix2) with 2. destruct e as [|p|p].
  - cbn. rewrite ln_1. lra.
  - cbn [powerRZ]. rewrite <- (Rpower_pow (Pos.to_nat p)) by lra. unfold Rpower. rewrite ln_exp, INR_IZR_INZ, positive_nat_Z. reflexivity.
  - cbn [powerRZ]. rewrite ln_Rinv by (apply pow_lt; lra). rewrite <- (Rpower_pow (Pos.to_nat p)) by lra. unfold Rpower.
    rewrite ln_exp, INR_IZR_INZ, positive_nat_Z. change (IZR (Z.neg p)) with (- IZR (Z.pos p)). ring.
Qed.
Lemma near_bounds x r : near x r -> 0 < r -> r * (1 - bpow radix2 (-50)) <= sf_R x <= r * (1 + bpow radix2 (-50)).
Proof.
  intros [_ H] P. rewrite (Rabs_pos_eq r) in H by lra. rewrite (bpow_powerRZ radix2). change (IZR radix2) with 2.
  apply Rabs_le_inv in H. split; lra.
Qed.

(** The accepted rates. *)
Lemma fpp_real p : fpp_in_range p = true -> fval (sf_of_bits p) (sf_R (sf_of_bits p)) /\ bpow radix2 (-1022) <= sf_R (sf_of_bits p) <= 1.
Proof.
  intro H. unfold fpp_in_range in H. apply andb_true_iff in H as [H1 H2].
  assert (Fp : exists x, fval (sf_of_bits p) x).
  { apply valid_fval; [apply sf_of_bits_valid| |].
    - intro E. rewrite E in H1. destruct (sf_of_bits bits_min_positive) as [| | |s m e]; discriminate.
    - intros s E. rewrite E in H1, H2. destruct s; [|discriminate H2]. discriminate H1. }
  destruct Fp as (x & Fx). rewrite (fval_R _ _ Fx). split; [exact Fx|].
  assert (M : fval (sf_of_bits bits_min_positive) (bpow radix2 (-1022))).
  { assert (V : valid_binary 53 1024 (sf_of_bits bits_min_positive) = true) by apply sf_of_bits_valid.
    destruct (valid_fval _ V) as (y & Fy); [discriminate|intros; discriminate|]. pose proof (fval_R _ _ Fy) as Ey. subst y.
    replace (bpow radix2 (-1022)) with (sf_R (sf_of_bits bits_min_positive)); [exact Fy|].
    change (sf_of_bits bits_min_positive) with (S754_finite false 4503599627370496 (-1074)). unfold sf_R.
    replace (powerRZ 2 (-1074)) with (bpow radix2 (-1074)) by (rewrite bpow_powerRZ; reflexivity).
    change (-1022)%Z with (52 + -1074)%Z. rewrite bpow_plus. f_equal. }
  assert (O : fval (sf_of_bits bits_one) 1).
  { change (sf_of_bits bits_one) with (f_of_u64 1). rewrite <- (rnd_format 1) by (apply (format_int 1); lia). apply (fval_of_u64 1). reflexivity. }
  split. exact (f_leb_R _ _ _ _ M Fx H1). exact (f_leb_R _ _ _ _ Fx O H2).
Qed.
Lemma ln_fpp p : fpp_in_range p = true -> 0 <= - ln (sf_R (sf_of_bits p)) <= 1022 * ln 2.
Proof.
  intro H. destruct (fpp_real p H) as [_ [A B]]. pose proof (bpow_gt_0 radix2 (-1022)) as P. split.
  - assert (ln (sf_R (sf_of_bits p)) <= ln 1) by (apply ln_le; lra). rewrite ln_1 in H0. lra.
  - assert (ln (bpow radix2 (-1022)) <= ln (sf_R (sf_of_bits p))) by (apply ln_le; lra). rewrite ln_bpow in H0. lra.
Qed.
Lemma ln_fpp_zero p : fpp_in_range p = true -> ln (sf_R (sf_of_bits p)) = 0 \/ 0 < - ln (sf_R (sf_of_bits p)).
Proof. intro H. pose proof (ln_fpp p H). destruct (Req_dec (ln (sf_R (sf_of_bits p))) 0); [now left|right; lra]. Qed.

Lemma format_below_1 x : format x -> 0 < x < 1 -> bpow radix2 (-53) <= 1 - x.
Proof.
  intros F [P L]. destruct (format_inv x F) as (m & e & -> & Hm & He). pose proof (bpow_gt_0 radix2 e) as B.
  assert (M0 : (0 < m)%Z). { apply lt_IZR. apply Rmult_lt_reg_r with (bpow radix2 e); [exact B|]. lra. }
  destruct (Z_lt_le_dec e 0) as [E|E].
  - destruct (Z_lt_le_dec e (-53)) as [E2|E2].
    + assert (IZR m * bpow radix2 e <= bpow radix2 53 * bpow radix2 (-54)).
      { apply Rmult_le_compat; try lra. apply IZR_le. lia. rewrite IZR_bpow by lia. apply IZR_le. lia. apply bpow_le. lia. }
      rewrite <- bpow_plus in H. change (bpow radix2 (53 + -54)) with (/ 2) in H.
      assert (bpow radix2 (-53) <= bpow radix2 (-1)) by (apply bpow_le; lia). change (bpow radix2 (-1)) with (/ 2) in H0. lra.
    + assert (E1 : 1 = bpow radix2 (- e) * bpow radix2 e) by (rewrite <- bpow_plus, Z.add_opp_diag_l; reflexivity).
      assert (M1 : (m + 1 <= 2 ^ (- e))%Z).
      { assert (m < 2 ^ (- e))%Z; [|lia]. apply lt_IZR. rewrite <- IZR_bpow by lia. apply Rmult_lt_reg_r with (bpow radix2 e); [exact B|]. lra. }
      apply IZR_le in M1. rewrite plus_IZR, <- IZR_bpow in M1 by lia.
      apply Rle_trans with (bpow radix2 e); [apply bpow_le; lia|]. rewrite E1 at 1. nra.
  - exfalso. assert (bpow radix2 0 <= bpow radix2 e) by (apply bpow_le; lia). change (bpow radix2 0) with 1 in H.
    assert (1 <= IZR m) by (apply IZR_le; lia). nra.
Qed.
Lemma ln_le_1 x : 0 < x -> ln x <= x - 1.
Proof.
  intro P. destruct (Req_dec (ln x) 0) as [E|E].
  - assert (x = 1). { apply ln_inv; try lra. now rewrite ln_1. } lra.
  - pose proof (exp_ineq1 (ln x) E). rewrite exp_ln in H by exact P. lra.
Qed.
(** ln of an accepted rate is 0 or at most -2^-53. *)
Lemma ln_fpp_cases p : fpp_in_range p = true ->
  ln (sf_R (sf_of_bits p)) = 0 \/ bpow radix2 (-53) <= - ln (sf_R (sf_of_bits p)) <= 1022 * ln 2.
Proof.
  intro H. destruct (fpp_real p H) as [F [A B]]. pose proof (bpow_gt_0 radix2 (-1022)) as P. pose proof (ln_fpp p H) as [_ U].
  destruct B as [B|B]; [|left; rewrite B; apply ln_1]. right. split; [|exact U].
  pose proof (format_below_1 _ (fval_format _ _ F) ltac:(lra)). pose proof (ln_le_1 (sf_R (sf_of_bits p)) ltac:(lra)). lra.
Qed.

(** ** Relative errors, in units of 2^-53 *)
Definition btw (a b i : R) : Prop := b * (1 - i * eps) <= a <= b * (1 + i * eps).
Lemma eps_small : 0 < eps <= / 1000000.
Proof.
  unfold eps. split; [apply bpow_gt_0|]. apply Rle_trans with (bpow radix2 (-20)); [apply bpow_le; lia|].
  change (bpow radix2 (-20)) with (/ IZR 1048576). apply Rinv_le; lra.
Qed.
Lemma eps_sq k : 0 <= k <= 10000 -> k * eps * eps <= eps.
Proof. intro K. pose proof eps_small as [P S]. assert (k * eps <= 1) by nra. nra. Qed.
Lemma btw_pos a b i : btw a b i -> 0 < b -> 0 <= i <= 90 -> 0 < a.
Proof. intros [A _] B I. pose proof eps_small as [P S]. assert (i * eps <= / 2) by nra. nra. Qed.
Lemma btw_refl a i : 0 <= a -> 0 <= i -> btw a a i.
Proof. intros A I. pose proof eps_small as [P S]. assert (0 <= a * (i * eps)) by (apply Rmult_le_pos; [auto|apply Rmult_le_pos; lra]). split; lra. Qed.
Lemma mul_err i j : 0 <= i <= 90 -> 0 <= j <= 90 ->
  (1 + i * eps) * (1 + j * eps) <= 1 + (i + j + 1) * eps /\ 1 - (i + j + 1) * eps <= (1 - i * eps) * (1 - j * eps).
Proof.
  intros I J. pose proof eps_small as [P S]. pose proof (eps_sq (i * j) ltac:(nra)) as Q. assert (0 <= i * j * eps * eps). { repeat apply Rmult_le_pos; lra. }
  split; lra.
Qed.
Lemma btw_mul a b i a' b' j : btw a b i -> btw a' b' j -> 0 < b -> 0 < b' -> 0 <= i <= 90 -> 0 <= j <= 90 -> btw (a * a') (b * b') (i + j + 1).
Proof.
  intros A A' B B' I J. pose proof (btw_pos _ _ _ A B I) as Pa. pose proof (btw_pos _ _ _ A' B' J) as Pa'. pose proof (mul_err i j I J) as [U L].
  destruct A as [A1 A2], A' as [A1' A2']. pose proof eps_small as [P S].
  assert (Hi : 0 <= 1 - i * eps) by (assert (i * eps <= / 2) by nra; lra). assert (Hj : 0 <= 1 - j * eps) by (assert (j * eps <= / 2) by nra; lra).
  assert (BB : 0 < b * b') by nra. split.
  - apply Rle_trans with (b * b' * ((1 - i * eps) * (1 - j * eps))). apply Rmult_le_compat_l; lra.
    replace (b * b' * ((1 - i * eps) * (1 - j * eps))) with (b * (1 - i * eps) * (b' * (1 - j * eps))) by ring.
    apply Rmult_le_compat; auto; apply Rmult_le_pos; lra.
  - apply Rle_trans with (b * b' * ((1 + i * eps) * (1 + j * eps))). 2: apply Rmult_le_compat_l; lra.
    replace (b * b' * ((1 + i * eps) * (1 + j * eps))) with (b * (1 + i * eps) * (b' * (1 + j * eps))) by ring.
    apply Rmult_le_compat; lra.
Qed.
Lemma btw_inv a b i : btw a b i -> 0 < b -> 0 <= i <= 90 -> btw (/ a) (/ b) (i + 1).
Proof.
  intros A B I. pose proof (btw_pos _ _ _ A B I) as Pa. destruct A as [A1 A2]. pose proof eps_small as [P S].
  pose proof (eps_sq (i * (i + 1)) ltac:(nra)) as Q. assert (Q0 : 0 <= i * (i + 1) * eps * eps). { repeat apply Rmult_le_pos; lra. }
  assert (H1 : i * eps <= / 2) by nra. assert (H2 : 0 < 1 - i * eps) by lra. assert (H3 : 0 < 1 + i * eps) by nra.
  assert (Bi : 0 < / b) by (now apply Rinv_0_lt_compat). split.
  - apply Rmult_le_reg_r with a; [exact Pa|]. rewrite Rinv_l by lra. apply Rle_trans with (/ b * (1 - (i + 1) * eps) * (b * (1 + i * eps))).
    + apply Rmult_le_compat_l; [|exact A2]. apply Rmult_le_pos; [lra|]. assert ((i + 1) * eps <= / 2) by nra. lra.
    + replace (/ b * (1 - (i + 1) * eps) * (b * (1 + i * eps))) with ((1 - (i + 1) * eps) * (1 + i * eps)) by (field; lra). lra.
  - apply Rmult_le_reg_r with a; [exact Pa|]. rewrite Rinv_l by lra. apply Rle_trans with (/ b * (1 + (i + 1) * eps) * (b * (1 - i * eps))).
    + replace (/ b * (1 + (i + 1) * eps) * (b * (1 - i * eps))) with ((1 + (i + 1) * eps) * (1 - i * eps)) by (field; lra). lra.
    + apply Rmult_le_compat_l; [|exact A1]. apply Rmult_le_pos; [lra|]. assert (0 <= (i + 1) * eps) by nra. lra.
Qed.
Lemma btw_trans a b c i j : btw a b i -> btw b c j -> 0 < c -> 0 <= i <= 90 -> 0 <= j <= 90 -> btw a c (i + j + 1).
Proof.
  intros A B C I J. pose proof (btw_pos _ _ _ B C J) as Pb. pose proof (mul_err i j I J) as [U L].
  destruct A as [A1 A2], B as [B1 B2]. pose proof eps_small as [P S].
  assert (H1 : i * eps <= / 2) by nra. assert (H3 : 0 < 1 + i * eps) by nra. split.
  - apply Rle_trans with (b * (1 - i * eps)); [|exact A1]. apply Rle_trans with (c * (1 - j * eps) * (1 - i * eps)).
    + replace (c * (1 - j * eps) * (1 - i * eps)) with (c * ((1 - i * eps) * (1 - j * eps))) by ring. apply Rmult_le_compat_l; lra.
    + apply Rmult_le_compat_r; lra.
  - apply Rle_trans with (b * (1 + i * eps)); [exact A2|]. apply Rle_trans with (c * (1 + j * eps) * (1 + i * eps)).
    + apply Rmult_le_compat_r; lra.
    + replace (c * (1 + j * eps) * (1 + i * eps)) with (c * ((1 + i * eps) * (1 + j * eps))) by ring. apply Rmult_le_compat_l; lra.
Qed.
Lemma btw_weaken a b i j : btw a b i -> 0 <= b -> i <= j -> btw a b j.
Proof. intros [A1 A2] B I. pose proof eps_small as [P S]. assert (i * eps <= j * eps) by nra. split; nra. Qed.
Lemma btw_rnd x : bpow radix2 (-1000) <= x -> btw (rnd x) x 1.
Proof.
  intro H. pose proof (bpow_gt_0 radix2 (-1000)). assert (R := rnd_rel x). rewrite Rabs_pos_eq in R by lra. specialize (R H).
  apply Rabs_le_inv in R. split; lra.
Qed.
Lemma near_btw x r : near x r -> 0 < r -> btw (sf_R x) r 8.
Proof.
  intros H P. pose proof (near_bounds x r H P) as [A B]. replace (bpow radix2 (-50)) with (8 * eps) in *.
  - split; lra.
  - unfold eps. change 8 with (bpow radix2 3). rewrite <- bpow_plus. reflexivity.
Qed.
Lemma near_btw_neg x r : near x r -> r < 0 -> btw (- sf_R x) (- r) 8.
Proof.
  intros [_ H] P. rewrite (Rabs_left r) in H by lra. apply Rabs_le_inv in H.
  assert (E : powerRZ 2 (-50) = 8 * eps). { unfold eps. change 8 with (bpow radix2 3). rewrite <- bpow_plus, bpow_powerRZ. reflexivity. }
  rewrite E in H. split; lra.
Qed.

(** ** The capacity of a bucket *)
Definition rl (p : N) : R := - ln (sf_R (sf_of_bits p)).
Definition s2 : R := ln 2 * ln 2.
Definition bopt (p : N) : R := 32768 * s2 / rl p.
Lemma s2_bounds : / 4 <= s2 <= 1.
Proof. unfold s2. pose proof ln2_lo. pose proof ln2_hi. nra. Qed.
Lemma fval_ln2_sq L : libm_accurate L -> fval (ln2_sq L) (sf_R (ln2_sq L)) /\ btw (sf_R (ln2_sq L)) s2 8.
Proof.
  intro HL. destruct HL as [_ N2]. split; [exact (sf_fin_fval _ (proj1 N2))|]. apply near_btw; [exact N2|]. pose proof s2_bounds. unfold s2 in *. lra.
Qed.
Lemma fpp_domain p : fpp_in_range p = true -> f_leb (sf_of_bits bits_min_positive) (sf_of_bits p) = true /\ f_leb (sf_of_bits p) f_one = true.
Proof. intro Hp. unfold fpp_in_range in Hp. apply andb_true_iff in Hp. exact Hp. Qed.
Lemma fval_ln L p : libm_accurate L -> fpp_in_range p = true -> fval (lm_ln L (sf_of_bits p)) (sf_R (lm_ln L (sf_of_bits p))) /\
  (0 < rl p -> btw (- sf_R (lm_ln L (sf_of_bits p))) (rl p) 8) /\ (rl p = 0 -> sf_R (lm_ln L (sf_of_bits p)) = 0).
Proof.
  intros HL Hp. destruct HL as [N1 _]. destruct (fpp_domain p Hp) as [D1 D2]. specialize (N1 (sf_of_bits p) (sf_of_bits_valid p) D1 D2).
  split; [exact (sf_fin_fval _ (proj1 N1))|]. split.
  - intro P. apply near_btw_neg; [exact N1|]. unfold rl in P. lra.
  - intro Z. destruct N1 as [_ N1]. assert (E : ln (sf_R (sf_of_bits p)) = 0) by (unfold rl in Z; lra). rewrite E, Rabs_R0, Rmult_0_r, Rminus_0_r in N1.
    pose proof (Rabs_pos (sf_R (lm_ln L (sf_of_bits p)))). destruct (Req_dec (sf_R (lm_ln L (sf_of_bits p))) 0); [auto|].
    apply Rabs_no_R0 in H0. lra.
Qed.
(** The quotient computed by cap_from_bit_size before truncation. *)
Lemma bucket_quot L p : libm_accurate L -> fpp_in_range p = true -> 0 < rl p -> exists C, fval (f_abs (f_div (f_mul (f_of_u64 bucket_bit_size) (ln2_sq L)) (lm_ln L (sf_of_bits p)))) C /\ btw C (bopt p) 22 /\
  Z.of_N (v2_bucket_cap L p) = Z.min (2 ^ 64 - 1) (Zfloor C) /\ 15 <= C.
Proof.
  intros HL Hp Pl. destruct (fval_ln2_sq L HL) as [Fv Bv]. destruct (fval_ln L p HL Hp) as (Fy & By & _). specialize (By Pl).
  pose proof s2_bounds as Hs. pose proof (ln_fpp_cases p Hp) as Hl. fold (rl p) in Hl. destruct Hl as [Hl|Hl]; [unfold rl in Pl; lra|].
  pose proof ln2_hi as L2. pose proof ln2_lo as L1.
  set (v := sf_R (ln2_sq L)) in *. set (y := sf_R (lm_ln L (sf_of_bits p))) in *. pose proof eps_small as [Pe Se].
  assert (E53 : bpow radix2 (-53) = eps) by reflexivity. rewrite E53 in Hl.
  assert (V : / 8 <= v <= 2). { destruct Bv as [B1 B2]. split; nra. }
  assert (Y : eps / 2 <= - y <= 1024). { destruct By as [B1 B2]. split; nra. }
  assert (FB : fval (f_of_u64 bucket_bit_size) 32768).
  { rewrite <- (rnd_format 32768) by (apply (format_int 32768); lia). apply (fval_of_u64 32768). reflexivity. }
  assert (b1000 : bpow radix2 (-1000) <= bpow radix2 (-3)) by (apply bpow_le; lia). change (bpow radix2 (-3)) with (/ 8) in b1000.
  assert (FN : fval (f_mul (f_of_u64 bucket_bit_size) (ln2_sq L)) (rnd (32768 * v))).
  { apply fval_mul; auto. rewrite Rabs_pos_eq by lra. apply Rle_trans with (bpow radix2 16); [|apply bpow_le; lia]. change (bpow radix2 16) with 65536. lra. }
  assert (BN : btw (rnd (32768 * v)) (32768 * s2) 10).
  { replace 10 with (1 + 8 + 1) by ring. apply btw_trans with (32768 * v); try lra. apply btw_rnd. lra. destruct Bv as [B1 B2]. split; lra. }
  set (num := rnd (32768 * v)) in *.
  assert (SE : 0 <= s2 * eps <= eps) by (split; nra).
  assert (NV : 8000 <= num <= 65536). { destruct BN as [B1 B2]. split; lra. }
  assert (Qpos : 0 < num / - y). { apply Rmult_lt_0_compat; [lra|]. apply Rinv_0_lt_compat. lra. }
  assert (BQ : btw (num / - y) (bopt p) 20).
  { unfold bopt, Rdiv. replace 20 with (10 + (8 + 1) + 1) by ring. apply btw_mul; [exact BN|apply btw_inv; [exact By|lra|lra]|lra|apply Rinv_0_lt_compat; exact Pl|lra|lra]. }
  assert (QL : 3 <= num / - y). { apply Rmult_le_reg_r with (- y); [lra|]. unfold Rdiv. rewrite Rmult_assoc, Rinv_l by lra. lra. }
  assert (QU : num / - y <= bpow radix2 100).
  { apply Rmult_le_reg_r with (- y); [lra|]. unfold Rdiv. rewrite Rmult_assoc, Rinv_l, Rmult_1_r by lra.
    apply Rle_trans with (bpow radix2 100 * (eps / 2)). 2: apply Rmult_le_compat_l; [apply bpow_ge_0|lra].
    unfold eps. unfold Rdiv. rewrite <- Rmult_assoc, <- bpow_plus. change (bpow radix2 (100 + -53)) with 140737488355328. lra. }
  assert (QA : Rabs (num / y) = num / - y).
  { rewrite Rabs_left1. field; lra. unfold Rdiv. assert (/ y < 0) by (apply Rinv_lt_0_compat; lra). nra. }
  assert (FQ : fval (f_div (f_mul (f_of_u64 bucket_bit_size) (ln2_sq L)) (lm_ln L (sf_of_bits p))) (rnd (num / y))).
  { apply fval_div; auto. lra. rewrite QA. apply Rle_trans with (1 := QU). apply bpow_le; lia. }
  assert (RA : Rabs (rnd (num / y)) = rnd (num / - y)).
  { unfold rnd. rewrite <- round_NE_abs by auto with typeclass_instances. now rewrite QA. }
  exists (rnd (num / - y)). split; [rewrite <- RA; exact (fval_abs _ _ FQ)|].
  assert (XP : 0 < bopt p). { unfold bopt, Rdiv. apply Rmult_lt_0_compat; [lra|]. now apply Rinv_0_lt_compat. }
  assert (BC : btw (rnd (num / - y)) (bopt p) 22) by (replace 22 with (1 + 20 + 1) by ring; apply btw_trans with (num / - y); try lra; auto; apply btw_rnd; lra).
  split; [exact BC|]. split.
  { unfold v2_bucket_cap, bu_cap_from_bit_size. apply fval_to_u64. rewrite <- RA. exact (fval_abs _ _ FQ).
    rewrite <- RA. apply Rabs_pos. }
  rewrite <- (rnd_format 15) by (apply (format_int 15); lia). apply rnd_le.
  apply Rmult_le_reg_r with (- y); [lra|]. unfold Rdiv. rewrite Rmult_assoc, Rinv_l, Rmult_1_r by lra.
  assert (NL : 16383 * ln 2 <= num). { destruct BN as [B1 _]. unfold s2 in B1 at 1. assert (10 * eps <= / 100000) by lra. nra. }
  destruct By as [_ B2]. assert (rl p * (1 + 8 * eps) <= 1022 * ln 2 * (1 + 8 * eps)) by (apply Rmult_le_compat_r; lra).
  assert (1022 * ln 2 * (1 + 8 * eps) <= 1022 * ln 2 * (1 + / 1000)) by (apply Rmult_le_compat_l; lra). lra.
Qed.

(** The capacity of a bucket against 32768 ln(2)^2 / ln(1/p). *)
Lemma rl_nonneg p : fpp_in_range p = true -> 0 <= rl p.
Proof. intro H. apply (ln_fpp p H). Qed.
Lemma bopt_pos p : 0 < rl p -> 0 < bopt p.
Proof. intro H. unfold bopt, Rdiv. pose proof s2_bounds. apply Rmult_lt_0_compat; [lra|]. now apply Rinv_0_lt_compat. Qed.
Lemma bucket_cap_real L p : libm_accurate L -> fpp_in_range p = true -> 0 < rl p ->
  (15 <= v2_bucket_cap L p)%N /\ IZR (Z.of_N (v2_bucket_cap L p)) <= bopt p * (1 + 32 * eps) /\
  (v2_bucket_cap L p = u64_max \/ bopt p * (1 - 32 * eps) - 1 <= IZR (Z.of_N (v2_bucket_cap L p))).
Proof.
  intros HL Hp P. destruct (bucket_quot L p HL Hp P) as (C & _ & B & E & G). pose proof (bopt_pos p P) as BP.
  apply btw_weaken with (j := 32) in B; [|lra|lra]. destruct B as [B1 B2].
  assert (F15 : (15 <= Zfloor C)%Z) by (apply Zfloor_lub; exact G). split; [lia|]. split.
  - apply Rle_trans with C; [|lra]. apply Rle_trans with (IZR (Zfloor C)); [apply IZR_le; lia|apply Zfloor_lb].
  - destruct (Z.le_gt_cases (2 ^ 64 - 1) (Zfloor C)) as [S|S].
    + left. unfold u64_max. lia.
    + right. rewrite E, Z.min_r by lia. pose proof (Zfloor_ub C). lra.
Qed.

(** The number of buckets times the bits of a bucket against the optimum. *)
Lemma n_bucket0_real L cap p : libm_accurate L -> fpp_in_range p = true -> (cap < two64)%N ->
  IZR (Z.of_N cap) * rl p / s2 * (1 - 32 * eps) <= 32768 * IZR (Z.of_N (v2_n_bucket0 L cap p)).
Proof.
  intros HL Hp Hc. pose proof s2_bounds as Hs. pose proof eps_small as [Pe Se].
  assert (Z0 : 0 <= 32768 * IZR (Z.of_N (v2_n_bucket0 L cap p))). { apply Rmult_le_pos; [lra|]. apply IZR_le. lia. }
  destruct (rl_nonneg p Hp) as [P|P]. 2:{ rewrite <- P. unfold Rdiv. rewrite Rmult_0_r, !Rmult_0_l. exact Z0. }
  destruct (N.eq_dec cap 0) as [->|Nc]. { cbn [Z.of_N]. unfold Rdiv. rewrite !Rmult_0_l. exact Z0. }
  destruct (bucket_quot L p HL Hp P) as (C & _ & B & E & G). pose proof (bopt_pos p P) as BP.
  assert (F15 : (15 <= Zfloor C)%Z) by (apply Zfloor_lub; exact G).
  set (c := v2_bucket_cap L p) in *. assert (C15 : (15 <= c)%N) by lia. assert (Clt : (c < two64)%N) by (unfold two64; lia).
  assert (CC : IZR (Z.of_N c) <= C). { apply Rle_trans with (IZR (Zfloor C)); [apply IZR_le; lia|apply Zfloor_lb]. }
  assert (c1 : 15 <= IZR (Z.of_N c)) by (apply IZR_le; lia). assert (a1 : 1 <= IZR (Z.of_N cap)) by (apply IZR_le; lia).
  assert (b1000 : bpow radix2 (-1000) <= bpow radix2 0) by (apply bpow_le; lia). change (bpow radix2 0) with 1 in b1000.
  assert (BA : btw (rnd (IZR (Z.of_N cap))) (IZR (Z.of_N cap)) 1) by (apply btw_rnd; lra).
  assert (BB : btw (rnd (IZR (Z.of_N c))) (IZR (Z.of_N c)) 1) by (apply btw_rnd; lra).
  pose proof (rnd_u64_bounds cap Hc) as [_ A2]. pose proof (rnd_u64_bounds c Clt) as [_ C2].
  assert (A3 : 1 <= rnd (IZR (Z.of_N cap))) by (apply rnd_ge_1; lia). assert (C3 : 1 <= rnd (IZR (Z.of_N c))) by (apply rnd_ge_1; lia).
  pose proof (fval_of_u64 cap Hc) as FA. pose proof (fval_of_u64 c Clt) as FC.
  set (a := rnd (IZR (Z.of_N cap))) in *. set (b := rnd (IZR (Z.of_N c))) in *.
  assert (BQ : btw (a / b) (IZR (Z.of_N cap) / IZR (Z.of_N c)) 4).
  { unfold Rdiv. replace 4 with (1 + (1 + 1) + 1) by ring. apply btw_mul; [exact BA|apply btw_inv; [exact BB|lra|lra]|lra|apply Rinv_0_lt_compat; lra|lra|lra]. }
  assert (Q1 : a / b <= bpow radix2 64).
  { apply Rmult_le_reg_r with b; [lra|]. unfold Rdiv. rewrite Rmult_assoc, Rinv_l, Rmult_1_r by lra. nra. }
  assert (Q2 : bpow radix2 (-64) <= a / b).
  { apply Rmult_le_reg_r with b; [lra|]. unfold Rdiv. rewrite Rmult_assoc, Rinv_l, Rmult_1_r by lra.
    apply Rle_trans with (bpow radix2 (-64) * bpow radix2 64). apply Rmult_le_compat_l; [apply bpow_ge_0|lra].
    rewrite <- bpow_plus. change (bpow radix2 (-64 + 64)) with 1. lra. }
  assert (Q3 : bpow radix2 (-1000) <= bpow radix2 (-64)) by (apply bpow_le; lia). pose proof (bpow_gt_0 radix2 (-64)) as P64.
  assert (FQ : fval (f_div (f_of_u64 cap) (f_of_u64 c)) (rnd (a / b))).
  { apply fval_div; auto. lra. rewrite Rabs_pos_eq by lra. apply Rle_trans with (1 := Q1). apply bpow_le; lia. }
  assert (W : 0 < IZR (Z.of_N cap) / IZR (Z.of_N c)). { apply Rmult_lt_0_compat; [lra|]. apply Rinv_0_lt_compat. lra. }
  assert (BR : btw (rnd (a / b)) (IZR (Z.of_N cap) / IZR (Z.of_N c)) 6).
  { replace 6 with (1 + 4 + 1) by ring. apply btw_trans with (a / b); [apply btw_rnd; lra|exact BQ|exact W|lra|lra]. }
  assert (R0 : 0 <= rnd (a / b)). { apply Rlt_le. apply (btw_pos _ _ _ BR W). lra. }
  assert (C0 : (0 <= Zceil (rnd (a / b)))%Z). { apply le_IZR. apply Rle_trans with (1 := R0). apply Zceil_ub. }
  pose proof (fval_to_u64 _ _ (fval_ceil _ _ FQ) ltac:(apply IZR_le; exact C0)) as T. rewrite Zfloor_IZR in T.
  pose proof (ceil_div_le cap c Hc ltac:(lia) Clt) as LE.
  assert (NB : Z.of_N (v2_n_bucket0 L cap p) = Zceil (rnd (a / b))).
  { unfold v2_n_bucket0. fold c. lia. }
  rewrite NB. apply Rle_trans with (32768 * rnd (a / b)). 2: apply Rmult_le_compat_l; [lra|apply Zceil_ub].
  destruct BR as [BR _]. apply Rle_trans with (32768 * (IZR (Z.of_N cap) / IZR (Z.of_N c) * (1 - 6 * eps))). 2: apply Rmult_le_compat_l; lra.
  assert (BI : btw (/ C) (/ bopt p) 23) by (replace 23 with (22 + 1) by ring; apply btw_inv; [exact B|exact BP|lra]).
  destruct BI as [BI _]. assert (BPi : 0 < / bopt p) by (now apply Rinv_0_lt_compat).
  assert (CI : / C <= / IZR (Z.of_N c)) by (apply Rinv_le; lra).
  assert (EX : IZR (Z.of_N cap) * rl p / s2 = 32768 * (IZR (Z.of_N cap) * / bopt p)). { unfold bopt. field. split; lra. }
  rewrite EX. pose proof (mul_err 23 6 ltac:(lra) ltac:(lra)) as [_ ME].
  assert (T1 : / bopt p * (1 - 32 * eps) <= / IZR (Z.of_N c) * (1 - 6 * eps)).
  { apply Rle_trans with (/ bopt p * ((1 - 23 * eps) * (1 - 6 * eps))). apply Rmult_le_compat_l; lra.
    rewrite <- Rmult_assoc. apply Rmult_le_compat_r; lra. }
  unfold Rdiv. assert (IZR (Z.of_N cap) * (/ bopt p * (1 - 32 * eps)) <= IZR (Z.of_N cap) * (/ IZR (Z.of_N c) * (1 - 6 * eps))) by (apply Rmult_le_compat_l; lra).
  lra.
Qed.

(** The bits of a v1 filter: the floor of the optimum, up to rounding. *)
Lemma bit_size_real L cap p : libm_accurate L -> fpp_in_range p = true -> (cap < two64)%N ->
  let o := IZR (Z.of_N cap) * rl p / s2 in
  IZR (Z.of_N (bu_bit_size L cap p)) <= o * (1 + 32 * eps) /\
  (bu_bit_size L cap p = u64_max \/ o * (1 - 32 * eps) - 1 < IZR (Z.of_N (bu_bit_size L cap p))).
Proof.
  intros HL Hp Hc o. pose proof s2_bounds as Hs. pose proof eps_small as [Pe Se].
  destruct (fval_ln2_sq L HL) as [Fv Bv]. destruct (fval_ln L p HL Hp) as (Fy & By & Y0).
  pose proof (fval_of_u64 cap Hc) as FA. pose proof (rnd_u64_bounds cap Hc) as [A1 A2].
  set (v := sf_R (ln2_sq L)) in *. set (y := sf_R (lm_ln L (sf_of_bits p))) in *.
  assert (V : / 8 <= v <= 2). { destruct Bv as [B1 B2]. split; nra. }
  assert (B64 : bpow radix2 64 * 1024 <= bpow radix2 100). { change 1024 with (bpow radix2 10). rewrite <- bpow_plus. apply bpow_le. lia. }
  pose proof (bpow_gt_0 radix2 64) as P64.
  assert (zero_case : rnd (IZR (Z.of_N cap)) * y = 0 -> bu_bit_size L cap p = 0%N).
  { intro Z. assert (FM : fval (f_mul (f_of_u64 cap) (lm_ln L (sf_of_bits p))) (rnd (rnd (IZR (Z.of_N cap)) * y))).
    { apply fval_mul; auto. rewrite Z, Rabs_R0. apply bpow_ge_0. }
    rewrite Z, rnd_0 in FM. assert (FD : fval (f_div (f_mul (f_of_u64 cap) (lm_ln L (sf_of_bits p))) (ln2_sq L)) (rnd (0 / v))).
    { apply fval_div; auto. lra. unfold Rdiv. rewrite Rmult_0_l, Rabs_R0. apply bpow_ge_0. }
    unfold Rdiv in FD. rewrite Rmult_0_l, rnd_0 in FD. pose proof (fval_to_u64 _ _ (fval_abs _ _ (fval_ceil _ _ FD)) (Rabs_pos _)) as T.
    rewrite (Zceil_IZR 0), Rabs_R0, (Zfloor_IZR 0) in T. unfold bu_bit_size. lia. }
  destruct (rl_nonneg p Hp) as [P|P].
  2:{ symmetry in P. rewrite zero_case by (rewrite (Y0 P); ring). unfold o. rewrite P. cbn [Z.of_N]. unfold Rdiv. rewrite Rmult_0_r, !Rmult_0_l. split; [lra|right; lra]. }
  destruct (N.eq_dec cap 0) as [Z|Nc].
  { rewrite zero_case by (rewrite Z; cbn [Z.of_N]; rewrite rnd_0; ring). unfold o. rewrite Z. cbn [Z.of_N]. unfold Rdiv. rewrite !Rmult_0_l. split; [lra|right; lra]. }
  specialize (By P). pose proof (ln_fpp_cases p Hp) as Hl. fold (rl p) in Hl. destruct Hl as [Hl|Hl]; [unfold rl in P; lra|].
  assert (E53 : bpow radix2 (-53) = eps) by reflexivity. rewrite E53 in Hl. pose proof ln2_hi as L2.
  assert (Y : eps / 2 <= - y <= 1024). { destruct By as [B1 B2]. split; nra. }
  assert (a1 : 1 <= IZR (Z.of_N cap)) by (apply IZR_le; lia). assert (A3 : 1 <= rnd (IZR (Z.of_N cap))) by (apply rnd_ge_1; lia).
  assert (b1000 : bpow radix2 (-1000) <= bpow radix2 0) by (apply bpow_le; lia). change (bpow radix2 0) with 1 in b1000.
  assert (b1000' : bpow radix2 (-1000) <= eps / 4).
  { unfold eps. change (bpow radix2 (-53) / 4) with (bpow radix2 (-53) * / bpow radix2 2). rewrite <- bpow_opp, <- bpow_plus. apply bpow_le. lia. }
  assert (BA : btw (rnd (IZR (Z.of_N cap))) (IZR (Z.of_N cap)) 1) by (apply btw_rnd; lra).
  set (a := rnd (IZR (Z.of_N cap))) in *.
  assert (BM : btw (a * - y) (IZR (Z.of_N cap) * rl p) 10).
  { replace 10 with (1 + 8 + 1) by ring. apply btw_mul; auto; lra. }
  assert (M1 : eps / 2 <= a * - y <= bpow radix2 100).
  { split; [nra|]. apply Rle_trans with (2 := B64). apply Rmult_le_compat; lra. }
  assert (OP : 0 < IZR (Z.of_N cap) * rl p) by nra.
  assert (MA : Rabs (a * y) = a * - y). { rewrite Rabs_left1. ring. nra. }
  assert (FM : fval (f_mul (f_of_u64 cap) (lm_ln L (sf_of_bits p))) (rnd (a * y))).
  { apply fval_mul; auto. rewrite MA. apply Rle_trans with (1 := proj2 M1). apply bpow_le. lia. }
  assert (RM : rnd (a * y) = - rnd (a * - y)). { unfold rnd. rewrite <- round_NE_opp. f_equal. ring. }
  assert (BRM : btw (rnd (a * - y)) (IZR (Z.of_N cap) * rl p) 12).
  { replace 12 with (1 + 10 + 1) by ring. apply btw_trans with (a * - y); [apply btw_rnd; lra|exact BM|exact OP|lra|lra]. }
  set (m := rnd (a * - y)) in *.
  assert (M2 : eps / 4 <= m <= bpow radix2 101).
  { destruct BRM as [B1 B2], BM as [B3 B4]. assert (IZR (Z.of_N cap) * rl p <= 2 * bpow radix2 100) by nra.
    assert (eps <= IZR (Z.of_N cap) * rl p) by nra. split; [nra|].
    unfold m. rewrite <- (rnd_format (bpow radix2 101)). apply rnd_le. apply Rle_trans with (1 := proj2 M1). apply bpow_le; lia.
    replace (bpow radix2 101) with (1 * bpow radix2 101) by ring. apply (format_spec 1); lia. }
  assert (BQ : btw (m / v) o 22).
  { unfold o, Rdiv. replace 22 with (12 + (8 + 1) + 1) by ring. apply btw_mul; [exact BRM|apply btw_inv; [exact Bv|lra|lra]|exact OP|apply Rinv_0_lt_compat; lra|lra|lra]. }
  assert (Oo : 0 < o). { unfold o, Rdiv. apply Rmult_lt_0_compat; [exact OP|]. apply Rinv_0_lt_compat. lra. }
  assert (Q1 : eps / 8 <= m / v). { apply Rmult_le_reg_r with v; [lra|]. unfold Rdiv at 2. rewrite Rmult_assoc, Rinv_l, Rmult_1_r by lra. nra. }
  assert (Q2 : m / v <= bpow radix2 105).
  { apply Rmult_le_reg_r with v; [lra|]. unfold Rdiv. rewrite Rmult_assoc, Rinv_l, Rmult_1_r by lra.
    apply Rle_trans with (bpow radix2 105 * / 8). 2: apply Rmult_le_compat_l; [apply bpow_ge_0|lra].
    change (/ 8) with (bpow radix2 (-3)). rewrite <- bpow_plus. apply Rle_trans with (1 := proj2 M2). apply bpow_le; lia. }
  assert (FQ : fval (f_div (f_mul (f_of_u64 cap) (lm_ln L (sf_of_bits p))) (ln2_sq L)) (- rnd (m / v))).
  { replace (- rnd (m / v)) with (rnd (- m / v)). 2:{ unfold rnd. rewrite <- round_NE_opp. f_equal. unfold Rdiv. ring. }
    rewrite RM in FM. apply fval_div; auto. lra. replace (- m / v) with (- (m / v)) by (unfold Rdiv; ring).
    rewrite Rabs_Ropp, Rabs_pos_eq by lra. apply Rle_trans with (1 := Q2). apply bpow_le; lia. }
  assert (b8 : bpow radix2 (-1000) <= eps / 8).
  { unfold eps. change (bpow radix2 (-53) / 8) with (bpow radix2 (-53) * / bpow radix2 3). rewrite <- bpow_opp, <- bpow_plus. apply bpow_le. lia. }
  assert (BR : btw (rnd (m / v)) o 24).
  { replace 24 with (1 + 22 + 1) by ring. apply btw_trans with (m / v); [apply btw_rnd; lra|exact BQ|exact Oo|lra|lra]. }
  set (r := rnd (m / v)) in *. assert (R0 : 0 < r) by (apply (btw_pos _ _ _ BR Oo); lra).
  pose proof (fval_to_u64 _ _ (fval_abs _ _ (fval_ceil _ _ FQ)) (Rabs_pos _)) as T.
  assert (FL : Zfloor (Rabs (IZR (Zceil (- r)))) = Zfloor r).
  { unfold Zceil. rewrite Ropp_involutive, opp_IZR, Rabs_Ropp, Rabs_pos_eq. apply Zfloor_IZR. apply IZR_le. apply Zfloor_lub. lra. }
  rewrite FL in T. change (Z.of_N (bu_bit_size L cap p) = Z.min (2 ^ 64 - 1) (Zfloor r)) in T.
  apply btw_weaken with (j := 32) in BR; [|lra|lra]. destruct BR as [B1 B2]. split.
  - apply Rle_trans with r; [|exact B2]. apply Rle_trans with (IZR (Zfloor r)); [apply IZR_le; lia|apply Zfloor_lb].
  - destruct (Z.le_gt_cases (2 ^ 64 - 1) (Zfloor r)) as [S|S].
    + left. unfold u64_max. lia.
    + right. rewrite T, Z.min_r by lia. pose proof (Zfloor_ub r). lra.
Qed.

(** ** A math library that rounds the real functions correctly *)
Definition sf_round (r : R) : spec_float :=
  B2SF (binary_normalize 53 1024 _ _ mode_NE (Ztrunc (scaled_mantissa radix2 fx (rnd r))) (cexp radix2 fx (rnd r)) false : bf64).
Lemma sf_round_fval r : Rabs r <= bpow radix2 1023 -> fval (sf_round r) (rnd r).
Proof.
  intro H. set (m := Ztrunc (scaled_mantissa radix2 fx (rnd r))). set (e := cexp radix2 fx (rnd r)).
  assert (E : F2R (Float radix2 m e) = rnd r). { symmetry. apply (format_rnd r). }
  pose proof (binary_normalize_correct 53 1024 _ _ mode_NE m e false) as C. cbn zeta in C. rewrite E in C.
  change (round radix2 fx (round_mode mode_NE) (rnd r)) with (rnd (rnd r)) in C.
  rewrite (rnd_format (rnd r)) in C by apply format_rnd. rewrite (rnd_small r H) in C. destruct C as (C1 & C2 & _).
  exists (binary_normalize 53 1024 _ _ mode_NE m e false). split; [reflexivity|]. split; [exact C2|exact C1].
Qed.
Lemma fval_fin a x : fval a x -> sf_fin a.
Proof.
  intros (b & <- & F & _). split; [apply valid_binary_B2SF|]. destruct b; try discriminate; exact I.
Qed.
Definition real_libm : libm := {|
  lm_ln := fun x => sf_round (ln (sf_R x));
  lm_exp := fun x => sf_round (exp (sf_R x));
  lm_powf := fun x y => sf_round (Rpower (sf_R x) (sf_R y)) |}.
Lemma eps_2_50 : powerRZ 2 (-50) = 8 * eps.
Proof. unfold eps. change 8 with (bpow radix2 3). rewrite <- bpow_plus, bpow_powerRZ. reflexivity. Qed.
Lemma sf_round_near r x : 0 < r -> bpow radix2 (-900) <= x <= bpow radix2 900 -> btw x r 6 -> near (sf_round x) r.
Proof.
  intros Pr Hx B. pose proof eps_small as [Pe Se]. pose proof (bpow_gt_0 radix2 (-900)).
  assert (F : fval (sf_round x) (rnd x)).
  { apply sf_round_fval. rewrite Rabs_pos_eq by lra. apply Rle_trans with (1 := proj2 Hx). apply bpow_le; lia. }
  split; [exact (fval_fin _ _ F)|]. rewrite (fval_R _ _ F), eps_2_50, (Rabs_pos_eq r) by lra.
  assert (R : btw (rnd x) r 8).
  { replace 8 with (1 + 6 + 1) by ring. apply btw_trans with x; [|exact B|exact Pr|lra|lra]. apply btw_rnd.
    apply Rle_trans with (bpow radix2 (-900)); [apply bpow_le; lia|lra]. }
  destruct R as [R1 R2]. apply Rabs_le. split; lra.
Qed.
Lemma ln2_small : bpow radix2 (-900) <= / 8 /\ 8 <= bpow radix2 900.
Proof.
  change (/ 8) with (bpow radix2 (-3)). change 8 with (bpow radix2 3). split; apply bpow_le; lia.
Qed.
Lemma real_libm_accurate : libm_accurate real_libm.
Proof.
  pose proof eps_small as [Pe Se]. pose proof ln2_lo as L1. pose proof ln2_hi as L2. pose proof ln2_small as [S1 S2]. split.
  - intros x V A B. cbn [lm_ln real_libm].
    assert (Fx : sf_fin x).
    { split; [exact V|]. destruct x as [|s| |]; auto. destruct s; [discriminate A|discriminate B]. discriminate A. }
    apply sf_fin_fval in Fx.
    destruct (fpp_real bits_min_positive eq_refl) as [FM [M1 M2]]. pose proof (f_leb_R _ _ _ _ FM Fx A) as XA.
    assert (O : fval f_one 1). { rewrite <- (rnd_format 1) by (apply (format_int 1); lia). apply (fval_of_u64 1). reflexivity. }
    pose proof (f_leb_R _ _ _ _ Fx O B) as XB. pose proof (bpow_gt_0 radix2 (-1022)) as P.
    set (r := sf_R x) in *. destruct XB as [XB|XB].
    + pose proof (format_below_1 _ (fval_format _ _ Fx) ltac:(lra)) as F1. pose proof (ln_le_1 r ltac:(lra)) as F2.
      assert (U : - ln r <= 1022 * ln 2). { assert (ln (bpow radix2 (-1022)) <= ln r) by (apply ln_le; lra). rewrite ln_bpow in H. lra. }
      assert (E53 : bpow radix2 (-53) = eps) by reflexivity. rewrite E53 in F1.
      assert (b : bpow radix2 (-900) <= bpow radix2 (-53)) by (apply bpow_le; lia). rewrite E53 in b.
      assert (b' : bpow radix2 10 <= bpow radix2 900) by (apply bpow_le; lia). change (bpow radix2 10) with 1024 in b'.
      pose proof (bpow_gt_0 radix2 (-900)) as P9.
      assert (F : fval (sf_round (ln r)) (rnd (ln r))).
      { apply sf_round_fval. rewrite Rabs_left by lra. apply Rle_trans with (bpow radix2 900); [lra|apply bpow_le; lia]. }
      split; [exact (fval_fin _ _ F)|]. rewrite (fval_R _ _ F), eps_2_50.
      pose proof (rnd_rel (ln r)) as R. rewrite (Rabs_left (ln r)) in * by lra.
      assert (b2 : bpow radix2 (-1000) <= bpow radix2 (-900)) by (apply bpow_le; lia). specialize (R ltac:(lra)). nra.
    + rewrite XB, ln_1. assert (F : fval (sf_round 0) (rnd 0)). { apply sf_round_fval. rewrite Rabs_R0. apply bpow_ge_0. }
      split; [exact (fval_fin _ _ F)|]. rewrite (fval_R _ _ F), rnd_0, Rminus_0_r, Rabs_R0. lra.
  - cbn [lm_ln lm_powf real_libm].
    assert (F2 : fval f_two 2). { rewrite <- (rnd_format 2) by (apply (format_int 2); lia). apply (fval_of_u64 2). reflexivity. }
    rewrite (fval_R _ _ F2).
    assert (F : fval (sf_round (ln 2)) (rnd (ln 2))). { apply sf_round_fval. rewrite Rabs_pos_eq by lra. apply Rle_trans with (bpow radix2 900); [lra|apply bpow_le; lia]. }
    rewrite (fval_R _ _ F). assert (B : btw (rnd (ln 2)) (ln 2) 1).
    { apply btw_rnd. apply Rle_trans with (bpow radix2 (-900)); [apply bpow_le; lia|lra]. }
    assert (RP : 0 < rnd (ln 2)) by (apply (btw_pos _ _ _ B); lra).
    assert (EP : Rpower (rnd (ln 2)) 2 = rnd (ln 2) * rnd (ln 2)). { change 2 with (INR 2) at 2. rewrite Rpower_pow by exact RP. cbn [pow]. ring. }
    rewrite EP. assert (BB : btw (rnd (ln 2) * rnd (ln 2)) (ln 2 * ln 2) 3) by (replace 3 with (1 + 1 + 1) by ring; apply btw_mul; auto; lra).
    apply sf_round_near; [nra| |apply btw_weaken with 3; [exact BB|nra|lra]].
    destruct BB as [B1 B2]. assert (/ 4 <= ln 2 * ln 2 <= 1) by nra. split; nra.
Qed.
