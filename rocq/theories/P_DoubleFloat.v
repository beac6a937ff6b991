(** The upper bound of P_DoubleUp.v for the sizes the code computes. *)
From Coq Require Import Lia Reals Lra List Arith ZArith.
Import ListNotations.
From Verif Require Import M_V2 Spec_Bits Spec_V2 Spec_Libm Spec_Real P_Base P_V2Make P_V2Size.
From Flocq Require Import Core BinarySingleNaN.
From Verif Require Import P_Float P_FloatDiv P_Real Spec_Rate Spec_Double P_Rate P_RateFilter P_RateFloat P_RateV2 P_Tail P_Double P_DoubleUp.
Open Scope R_scope.

Lemma a_exp a a0 : 1 <= a0 <= a -> a * exp (- a) <= a0 * exp (- a0).
Proof.
  intros [A0 A]. replace (- a0) with (- a + (a - a0)) by ring. rewrite exp_plus. pose proof (exp_ge_1 (a - a0)). pose proof (exp_pos (- a)). set (e := exp (- a)) in *. set (g := exp (a - a0)) in *.
  assert (a <= a0 * g) by nra. nra.
Qed.
Lemma cap_lower L p : libm_accurate L -> fpp_in_range p = true -> sf_R (sf_of_bits p) <= / 2 -> libm_ln2 L ->
  let c := IZR (Z.of_N (v2_bucket_cap L p)) in 15 <= c /\ 32768 * (457 / 1000) <= c * rl p <= 32768 * (481 / 1000).
Proof.
  intros A Hp P B c. destruct (h_bounds p Hp P) as [R0 HB]. destruct (v2_sizing L p A B Hp R0) as [C15 [Cu _]]. cbv zeta in C15, Cu. fold c in C15, Cu. pose proof (v2_x_bound L p A Hp P) as X. fold c in X. pose proof ln2_num as [Lo Hi]. pose proof eps_small as [Pe Se].
  split; [exact C15|]. split.
  - assert (Y : 32768 * ln 2 <= 21 / 20 * (rl p / ln 2) * c). { apply Rmult_le_reg_r with (/ c); [apply Rinv_0_lt_compat; lra|]. replace (21 / 20 * (rl p / ln 2) * c * / c) with (21 / 20 * (rl p / ln 2)) by (field; lra). exact X. }
    assert (Z : 32768 * ln 2 * ln 2 <= 21 / 20 * (c * rl p)). { replace (21 / 20 * (c * rl p)) with (21 / 20 * (rl p / ln 2) * c * ln 2) by (field; lra). apply Rmult_le_compat_r; lra. } nra.
  - apply Rle_trans with (1 := Cu). unfold s2. assert (32 * eps <= / 10000). { assert (Eq : eps = / 9007199254740992) by reflexivity. rewrite Eq. lra. } assert (ln 2 * ln 2 <= 0.48053) by nra. nra.
Qed.

Lemma miss_lower a n : 0 <= a < 1 -> exp (- (INR n * (a / (1 - a)))) <= (1 - a) ^ n.
Proof.
  intro A. replace (- (INR n * (a / (1 - a)))) with (INR n * - (a / (1 - a))) by ring. rewrite <- exp_pow. apply pow_incr. split; [apply Rlt_le, exp_pos|].
  rewrite exp_Ropp. replace (1 - a) with (/ (/ (1 - a))) at 2 by (apply Rinv_inv). apply Rinv_le_contravar; [apply Rinv_0_lt_compat; lra|].
  replace (/ (1 - a)) with (1 + a / (1 - a)) at 1 by (field; lra). apply exp_ge_1.
Qed.
Lemma hit_rate_full b m k n c : (0 < b)%nat -> (k < m)%nat -> (n <= c * b)%nat -> 1 - (1 - INR k / (INR b * INR m)) ^ n <= 1 - exp (- (INR c * INR k / (INR m - INR k))).
Proof.
  intros B K N. assert (B1 : 1 <= INR b) by (change 1 with (INR 1); apply le_INR; lia). apply lt_INR in K. apply le_INR in N. rewrite mult_INR in N. pose proof (pos_INR k) as K0. pose proof (pos_INR n) as N0. pose proof (pos_INR c) as C0.
  set (a := INR k / (INR b * INR m)). assert (Pbm : 0 < INR b * INR m) by nra. assert (A : 0 <= a < 1).
  { unfold a. split; [apply Rmult_le_pos; [lra|apply Rlt_le, Rinv_0_lt_compat; lra]|]. apply Rmult_lt_reg_r with (INR b * INR m); [lra|]. unfold Rdiv. rewrite Rmult_assoc, Rinv_l by lra. nra. }
  pose proof (miss_lower a n A) as H. apply Rplus_le_compat_l, Ropp_le_contravar. apply Rle_trans with (2 := H). apply exp_le, Ropp_le_contravar.
  replace (a / (1 - a)) with (INR k / (INR b * INR m - INR k)). 2: { unfold a. field. split; nra. }
  assert (Q : 0 < INR b * INR m - INR k) by nra. apply Rmult_le_reg_r with (INR b * INR m - INR k); [lra|]. replace (INR n * (INR k / (INR b * INR m - INR k)) * (INR b * INR m - INR k)) with (INR n * INR k) by (field; lra).
  apply Rmult_le_reg_r with (INR m - INR k); [lra|]. replace (INR c * INR k / (INR m - INR k) * (INR b * INR m - INR k) * (INR m - INR k)) with (INR c * INR k * (INR b * INR m - INR k)) by (field; lra).
  apply Rle_trans with (INR c * INR b * INR k * (INR m - INR k)); [repeat apply Rmult_le_compat_r; lra|]. assert (0 <= INR c * INR k) by nra. assert (INR b * (INR m - INR k) <= INR b * INR m - INR k) by nra. nra.
Qed.

Lemma gcd_sum_mono m a b : (a <= b)%nat -> gcd_sum m a <= gcd_sum m b.
Proof.
  intro H. induction H as [|z H IH]; [lra|]. apply Rle_trans with (1 := IH). unfold gcd_sum. cbn [sum_below]. pose proof (sum_pos z (fun i => INR (Nat.gcd (z - i) m)) ltac:(intros; apply pos_INR)). lra.
Qed.
Lemma gcd_5 : gcd_sum (N.to_nat 32768) 5 = 16.
Proof.
  assert (G : (Nat.gcd 1 (N.to_nat 32768) = 1 /\ Nat.gcd 2 (N.to_nat 32768) = 2 /\ Nat.gcd 3 (N.to_nat 32768) = 1 /\ Nat.gcd 4 (N.to_nat 32768) = 4)%nat) by (vm_compute; tauto).
  destruct G as (G1 & G2 & G3 & G4). unfold gcd_sum. cbn [sum_below Nat.sub]. rewrite G1, G2, G3, G4. cbn [INR]. lra.
Qed.
Lemma gcd_10 : gcd_sum (N.to_nat 32768) 10 = 89.
Proof.
  assert (G : (Nat.gcd 1 (N.to_nat 32768) = 1 /\ Nat.gcd 2 (N.to_nat 32768) = 2 /\ Nat.gcd 3 (N.to_nat 32768) = 1 /\ Nat.gcd 4 (N.to_nat 32768) = 4 /\ Nat.gcd 5 (N.to_nat 32768) = 1 /\ Nat.gcd 6 (N.to_nat 32768) = 2 /\ Nat.gcd 7 (N.to_nat 32768) = 1 /\ Nat.gcd 8 (N.to_nat 32768) = 8 /\ Nat.gcd 9 (N.to_nat 32768) = 1)%nat) by (vm_compute; tauto).
  destruct G as (G1 & G2 & G3 & G4 & G5 & G6 & G7 & G8 & G9). unfold gcd_sum. cbn [sum_below Nat.sub]. rewrite G1, G2, G3, G4, G5, G6, G7, G8, G9. cbn [INR]. lra.
Qed.
Lemma weight_M h k : 0 <= h <= 3 / 5 -> (k <= 10)%nat -> forall N t, (2 <= N)%nat -> (N <= t)%nat -> (t <= k)%nat -> INR t * (INR t - 1) * h ^ (t - N) <= 2.16 * (INR N * (INR N - 1)).
Proof.
  intros H K N t H2 HN Ht. assert (T2 : 2 <= INR t) by (change 2 with (INR 2); apply le_INR; lia). apply Rle_trans with (INR t * (INR t - 1) * (3 / 5) ^ (t - N)); [apply Rmult_le_compat_l; [nra|now apply pow_incr]|].
  clear T2. assert (Ht' : (t <= 10)%nat) by lia. clear - H2 HN Ht'.
  do 11 (destruct t as [|t]; [do 11 (destruct N as [|N]; [first [exfalso; lia | cbn [INR Nat.sub pow]; lra]|]); exfalso; lia|]). lia.
Qed.
Lemma weight_M5 h k : 0 <= h <= 1 -> (k <= 5)%nat -> forall N t, (2 <= N)%nat -> (N <= t)%nat -> (t <= k)%nat -> INR t * (INR t - 1) * h ^ (t - N) <= 10 * (INR N * (INR N - 1)).
Proof.
  intros H K N t H2 HN Ht. assert (2 <= INR N) by (change 2 with (INR 2); now apply le_INR). assert (2 <= INR t) by (change 2 with (INR 2); apply le_INR; lia). assert (INR t <= 5) by (replace 5 with (INR 5) by (cbn; lra); apply le_INR; lia).
  pose proof (pow_le_1' h (t - N) H) as Q. assert (INR t * (INR t - 1) <= 20) by nra. assert (2 <= INR N * (INR N - 1)) by nra. assert (0 <= INR t * (INR t - 1)) by nra. set (u := INR t * (INR t - 1)) in *. set (v := INR N * (INR N - 1)) in *. set (w := h ^ (t - N)) in *. clearbody u v w. nra.
Qed.
Lemma weight_W1 h k : 0 <= h <= 1 -> forall d, (1 <= d)%nat -> (d < k)%nat -> h ^ (k - d) <= INR d * 1.
Proof. intros H d Hd _. assert (1 <= INR d) by (change 1 with (INR 1); now apply le_INR). pose proof (pow_le_1' h (k - d) H). lra. Qed.
Lemma weight_W h k : 0 <= h <= 3 / 5 -> (6 <= k <= 10)%nat -> forall d, (1 <= d)%nat -> (d < k)%nat -> h ^ (k - d) <= INR d * 0.12.
Proof.
  intros H K d H1 Hd. apply Rle_trans with ((3 / 5) ^ (k - d)); [now apply pow_incr|]. clear H.
  do 11 (destruct k as [|k]; [first [exfalso; lia | do 11 (destruct d as [|d]; [first [exfalso; lia | cbn [INR Nat.sub pow]; lra]|]); exfalso; lia]|]). lia.
Qed.
Lemma ln1000 : 6.903 <= ln 1000 /\ ln 1000 <= 9.97 * ln 2.
Proof.
  pose proof ln2_num as [Lo Hi].
  assert (E : forall a n, 0 < a -> ln (a ^ n) = INR n * ln a) by (intros; now apply ln_pow).
  split.
  - assert (H : 2 ^ 249 <= 1000 ^ 25) by (change 2 with (IZR 2); rewrite !pow_IZR; apply IZR_le; vm_compute; discriminate).
    apply ln_le in H; [|apply pow_lt; lra]. rewrite !E in H by lra. rewrite !INR_IZR_INZ in H. cbn in H. lra.
  - assert (H : 1000 ^ 100 <= 2 ^ 997) by (change 2 with (IZR 2); rewrite !pow_IZR; apply IZR_le; vm_compute; discriminate).
    apply ln_le in H; [|apply pow_lt; lra]. rewrite !E in H by lra. rewrite !INR_IZR_INZ in H. cbn in H. lra.
Qed.
Lemma exp_76 : exp 0.76 <= 9 / 4.
Proof.
  replace 0.76 with (INR 8 * 0.095) by (cbn [INR]; lra). rewrite <- exp_pow. apply Rle_trans with ((/ 0.905) ^ 8); [|lra]. apply pow_incr. split; [apply Rlt_le, exp_pos|].
  replace 0.095 with (- - 0.095) by lra. rewrite exp_Ropp. apply Rinv_le_contravar; [lra|]. pose proof (exp_ge_1 (- 0.095)). lra.
Qed.
Lemma exp_19 : exp 0.19 <= 1.2346.
Proof. replace 0.19 with (- - 0.19) by lra. rewrite exp_Ropp. pose proof (exp_ge_1 (- 0.19)). apply Rle_trans with (/ 0.81); [apply Rinv_le_contravar; lra|lra]. Qed.

Lemma cubic x : 1 <= x <= 5.01 -> 3 / 4 + x * x * x / 3000 <= 0.7504 * x.
Proof. intro H. assert (A : x * x <= 6.01 * x - 5.01) by nra. assert (B : x * x * x <= 6.01 * (x * x) - 5.01 * x) by nra. lra. Qed.
Theorem v2_double L p b n : libm_accurate L -> libm_ln2 L -> fpp_in_range p = true -> / 1000 <= sf_R (sf_of_bits p) <= / 2 -> (0 < b)%nat -> (n <= N.to_nat (v2_bucket_cap L p) * b)%nat ->
  double_filter_rate b (N.to_nat 32768) (N.to_nat (v2_n_hash0 L p)) n <= 5 / 2 * sf_R (sf_of_bits p).
Proof.
  intros A B Hp [P1 P2] Hb Hn. set (P := sf_R (sf_of_bits p)) in *. pose proof ln2_num as [Lo Hi]. pose proof ln1000 as [T1 T2].
  destruct (h_bounds p Hp P2) as [R0 [Hh1 _]]. destruct (cap_lower L p A Hp P2 B) as [C15 [_ Cu]]. destruct (v2_sizing L p A B Hp R0) as [_ [Cu' [Kl Ku]]]. cbv zeta in Cu', Kl, Ku.
  pose proof (v2_design L p A B Hp P2) as [_ Des]. cbv zeta in Des. pose proof (p_exp p Hp) as PE. fold P in PE.
  set (c := IZR (Z.of_N (v2_bucket_cap L p))) in *. set (a := rl p) in *. set (k := N.to_nat (v2_n_hash0 L p)) in *. set (hh := a / ln 2) in *.
  assert (Ah : a = hh * ln 2) by (unfold hh; field; lra).
  assert (Ek : IZR (Z.of_N (v2_n_hash0 L p)) = INR k) by (unfold k; now rewrite INR_N). rewrite Ek in Kl, Ku.
  assert (Ec : INR (N.to_nat (v2_bucket_cap L p)) = c) by (rewrite INR_N; reflexivity). rewrite Ec in Des.
  assert (E32 : INR (N.to_nat 32768) = 32768) by (rewrite INR_N; reflexivity). rewrite E32 in Des.
  set (x := 32768 * ln 2 / c) in *. assert (Cx : c * x = 32768 * ln 2) by (unfold x; field; lra).
  assert (Eps : 0 < 11 * eps <= / 1000000). { assert (Eq : eps = / 9007199254740992) by reflexivity. rewrite Eq. lra. }
  assert (A1 : a <= ln 1000). { rewrite <- (ln_exp a). apply ln_le; [apply exp_pos|]. apply Rmult_le_reg_r with P; [lra|]. rewrite PE at 1. rewrite <- exp_plus. replace (a + - a) with 0 by ring. rewrite exp_0. lra. }
  assert (Hh2 : hh <= 9.97). { apply Rmult_le_reg_r with (ln 2); [lra|]. lra. }
  assert (X1 : x <= 1.00205 * hh) by (apply (v2_x_tight L p A Hp P2); change (hh <= 46); lra).
  assert (x0 : 0 < x) by (unfold x; apply Rmult_lt_0_compat; [lra|apply Rinv_0_lt_compat; lra]).
  assert (x9 : x <= 9.991) by lra. assert (Xe : 0 <= x * (11 * eps) <= 0.0001) by nra.
  assert (K10 : (k <= 10)%nat). { assert (Q : INR k < INR 11) by (cbn [INR]; lra). apply INR_lt in Q. lia. }
  assert (Kr : INR k <= 10) by (apply le_INR in K10; cbn [INR] in K10; lra). pose proof (pos_INR k) as K0.
  assert (K1 : 1 <= INR k). { destruct k as [|k']; [exfalso; cbn [INR] in Kl; nra|]. rewrite S_INR. pose proof (pos_INR k'). lra. }
  assert (CK : c * INR k <= c + 22715). { apply Rle_trans with (c * (1 + x * (1 + 11 * eps))); [apply Rmult_le_compat_l; lra|]. replace (c * (1 + x * (1 + 11 * eps))) with (c + c * x * (1 + 11 * eps)) by ring. rewrite Cx. nra. }
  assert (C1 : c <= 22750) by nra.
  set (h := 1 - exp (- (c * INR k / (32768 - INR k)))).
  assert (Hh : 1 - (1 - INR k / (INR b * INR (N.to_nat 32768))) ^ n <= h).
  { unfold h. rewrite <- Ec, <- E32. apply hit_rate_full; [exact Hb| |exact Hn]. lia. }
  assert (h1 : 0 <= h <= 1).
  { unfold h. pose proof (exp_pos (- (c * INR k / (32768 - INR k)))). split; [|lra]. rewrite <- exp_0 at 1. assert (exp (- (c * INR k / (32768 - INR k))) <= exp 0); [|lra]. apply exp_le. assert (0 <= c * INR k / (32768 - INR k)); [|lra]. apply Rmult_le_pos; [nra|]. apply Rlt_le, Rinv_0_lt_compat. lra. }
  (* the main term *)
  assert (Main : h ^ k <= P * exp (3 / (4 * hh) + hh * hh / 3000 + 0.005)).
  { set (y := c * INR k / (32768 - INR k) - ln 2). assert (Eh : h = 1 - exp (- (ln 2 + y)) + 0) by (unfold h, y; replace (ln 2 + (c * INR k / (32768 - INR k) - ln 2)) with (c * INR k / (32768 - INR k)) by ring; ring).
    apply Rle_trans with (exp (INR k * (y + 2 * 0 - ln 2))); [rewrite Eh; apply half_bound; lra|]. rewrite PE, <- exp_plus. apply exp_le.
    set (u := (32768 - 1) * ln 2 / c) in *. assert (u0 : 0 < u) by (unfold u; apply Rmult_lt_0_compat; [lra|apply Rinv_0_lt_compat; lra]).
    assert (E1 : ln 2 * ((INR k - u) * (INR k - u) / u - u) = c * (INR k * INR k) / 32767 - 2 * INR k * ln 2) by (unfold u; field; lra). rewrite E1 in Des.
    assert (E2 : INR k * (y + 2 * 0 - ln 2) = c * (INR k * INR k) / 32767 - 2 * INR k * ln 2 + c * INR k * (INR k * (INR k - 1)) / ((32768 - INR k) * 32767)) by (unfold y; field; lra). rewrite E2.
    assert (E3 : c * INR k * (INR k * (INR k - 1)) / ((32768 - INR k) * 32767) <= 0.005).
    { apply Rmult_le_reg_r with ((32768 - INR k) * 32767); [nra|]. unfold Rdiv. rewrite (Rmult_assoc (c * INR k * _)), Rinv_l by nra. rewrite Rmult_1_r. apply Rle_trans with (45465 * 90); [|nra]. apply Rmult_le_compat; [nra|nra|lra|nra]. }
    assert (0 <= 2 * (INR k * INR k) / 32768) by nra. lra. }
  assert (KN : (k <= N.to_nat 32768)%nat) by lia.
  assert (Nb : INR n / INR b <= c). { assert (1 <= INR b) by (change 1 with (INR 1); apply le_INR; lia). apply Rmult_le_reg_r with (INR b); [lra|]. unfold Rdiv. rewrite Rmult_assoc, Rinv_l, Rmult_1_r by lra. rewrite <- Ec, <- mult_INR. now apply le_INR. }
  assert (Nb0 : 0 <= INR n / INR b) by (apply Rmult_le_pos; [apply pos_INR|apply inv_nonneg]).
  pose proof (gcd_sum_pos (N.to_nat 32768) k) as G0.
  destruct (le_lt_dec k 5) as [K5|K5].
  - assert (Pl : / 34 <= P).
    { assert (a <= 5 * ln 2 + 0.001).
      { pose proof (u_bounds c a C15 R0 Cu') as U. assert (K5r : INR k <= 5) by (apply le_INR in K5; cbn [INR] in K5; lra). assert (XK : x <= 5.0001) by nra. assert (U2 : 32767 * ln 2 / c <= x) by (unfold x; apply Rmult_le_compat_r; [apply Rlt_le, Rinv_0_lt_compat; lra|lra]). nra. }
      rewrite PE. apply Rle_trans with (exp (- (5 * ln 2 + 0.001))); [|apply exp_le; lra]. replace (- (5 * ln 2 + 0.001)) with (INR 5 * - ln 2 + - 0.001) by (replace (INR 5) with 5 by (cbn [INR]; lra); lra). rewrite exp_plus, <- exp_pow, exp_Ropp, exp_ln by lra. pose proof (exp_ge_1 (- 0.001)). lra. }
    apply Rle_trans with (1 := double_filter_upper b (N.to_nat 32768) k n h 10 1 Hb ltac:(lia) KN ltac:(lra) ltac:(lra) (proj2 h1) Hh (weight_M5 h k h1 K5) (weight_W1 h k h1)).
    rewrite E32. pose proof (gcd_sum_mono (N.to_nat 32768) k 5 K5) as G. rewrite gcd_5 in G. set (g := gcd_sum (N.to_nat 32768) k) in *. set (nb := INR n / INR b) in *.
    assert (M9 : h ^ k <= 9 / 4 * P).
    { apply Rle_trans with (1 := Main). rewrite (Rmult_comm _ P). apply Rmult_le_compat_l; [lra|]. apply Rle_trans with (2 := exp_76). apply exp_le.
      assert (hh <= 5.01) by (assert (K5r : INR k <= 5) by (apply le_INR in K5; cbn [INR] in K5; lra); pose proof (u_bounds c a C15 R0 Cu') as U; assert (XK : x <= 5.0001) by nra; assert (U2 : 32767 * ln 2 / c <= x) by (unfold x; apply Rmult_le_compat_r; [apply Rlt_le, Rinv_0_lt_compat; lra|lra]); apply Rmult_le_reg_r with (ln 2); [lra|]; nra).
      assert (3 / (4 * hh) + hh * hh / 3000 <= 0.7504); [|lra]. apply Rmult_le_reg_r with hh; [lra|]. replace ((3 / (4 * hh) + hh * hh / 3000) * hh) with (3 / 4 + hh * hh * hh / 3000) by (field; lra). apply cubic. lra. }
    assert (X3 : g * nb <= 16 * 22750) by (apply Rmult_le_compat; lra). replace (10 * (2 * g / (32768 * 32768)) * nb) with (g * nb * (20 / (32768 * 32768))) by field. lra.
  - assert (K6 : 6 <= INR k) by (replace 6 with (INR 6) by (cbn; lra); apply le_INR; lia).
    assert (Hl : 4.98 <= hh) by nra. assert (a3 : 3.4516 <= a) by nra. assert (C2 : c <= 4567) by nra.
    assert (h6 : 0 <= h <= 3 / 5).
    { split; [lra|]. unfold h. assert (Q : c * INR k / (32768 - INR k) <= 0.84). { apply Rmult_le_reg_r with (32768 - INR k); [lra|]. unfold Rdiv. rewrite Rmult_assoc, Rinv_l by lra. lra. }
      assert (exp (- 0.84) <= exp (- (c * INR k / (32768 - INR k)))) by (apply exp_le; lra). assert ((1 - 0.105) ^ 8 <= exp (- 0.84)); [|lra]. replace (- 0.84) with (INR 8 * - 0.105) by (cbn [INR]; lra). rewrite <- exp_pow. apply pow_incr. pose proof (exp_ge_1 (- 0.105)). lra. }
    apply Rle_trans with (1 := double_filter_upper b (N.to_nat 32768) k n h 2.16 0.12 Hb ltac:(lia) KN ltac:(lra) ltac:(lra) (proj2 h1) Hh (weight_M h k h6 K10) (weight_W h k h6 ltac:(lia))).
    rewrite E32. pose proof (gcd_sum_mono (N.to_nat 32768) k 10 K10) as G. rewrite gcd_10 in G. set (g := gcd_sum (N.to_nat 32768) k) in *. set (nb := INR n / INR b) in *.
    assert (M9 : h ^ k <= 1.2346 * P).
    { apply Rle_trans with (1 := Main). rewrite (Rmult_comm _ P). apply Rmult_le_compat_l; [lra|]. apply Rle_trans with (2 := exp_19). apply exp_le.
      assert (3 / (4 * hh) <= 0.151). { apply Rmult_le_reg_r with hh; [lra|]. replace (3 / (4 * hh) * hh) with (3 / 4) by (field; lra). lra. }
      assert (hh * hh / 3000 <= 0.034) by nra. lra. }
    assert (PA : 0.0069 <= P * a).
    { rewrite PE. pose proof (a_exp (ln 1000) a ltac:(lra)) as Q. rewrite exp_Ropp, exp_ln in Q by lra. lra. }
    assert (X3 : 2.16 * (2 * g / (32768 * 32768)) * nb <= 0.82 * P).
    { apply Rmult_le_reg_r with a; [lra|]. apply Rle_trans with (2.16 * (2 * 89 / (32768 * 32768)) * (c * a)); [|nra].
      replace (2.16 * (2 * g / (32768 * 32768)) * nb * a) with (2.16 * 2 / (32768 * 32768) * (g * (nb * a))) by field. replace (2.16 * (2 * 89 / (32768 * 32768)) * (c * a)) with (2.16 * 2 / (32768 * 32768) * (89 * (c * a))) by field.
      apply Rmult_le_compat_l; [lra|]. apply Rmult_le_compat; [lra|nra|lra|nra]. }
    lra.
Qed.
