(** The rate of v2 filters with an index cache, which use fewer hash functions: reals. *)
From Coq Require Import Lia Reals Lra List Arith Bool.
Import ListNotations.
From Verif Require Import Spec_Rate P_Rate P_RateFilter P_Real P_RealLibm P_RateFloat P_RateV2.
Open Scope R_scope.

(** ** A tangent of ln(1 - exp(-x)) at ln(4/3), where the filters with a cache operate *)
Lemma quarter_bound y z k : 0 <= 1 - exp (- (ln (4 / 3) + y)) + z -> (1 - exp (- (ln (4 / 3) + y)) + z) ^ k <= exp (INR k * (3 * y + 4 * z - 2 * ln 2)).
Proof.
  intro H. rewrite <- exp_pow. apply pow_incr. split; [exact H|].
  replace (3 * y + 4 * z - 2 * ln 2) with (3 * y + 4 * z + - ln 2 + - ln 2) by ring. rewrite !exp_plus, (exp_Ropp (ln 2)), exp_ln by lra.
  replace (- (ln (4 / 3) + y)) with (- ln (4 / 3) + - y) by lra. rewrite exp_plus, (exp_Ropp (ln (4 / 3))), exp_ln by lra.
  pose proof (exp_ge_1 (3 * y + 4 * z)) as A. rewrite exp_plus in A. pose proof (exp_ge_1 (- y)). lra.
Qed.
Lemma ideal_exp4 m k n : (1 < m)%nat -> let K := INR k in
  ideal_rate m k n <= exp (4 * (K * K) / INR m - K * (2 * ln 2 + 3 * ln (4 / 3)) + 3 * (K * K) / (INR m - 1) * INR n).
Proof.
  intros M K. apply Rle_trans with (1 := ideal_upper m k n ltac:(lia)). assert (m1 : 1 < INR m) by (apply (lt_INR 1); lia).
  pose proof (untouched_ge m (k * n) M) as G. rewrite mult_INR in G. fold K in G. pose proof (untouched_bounds m (k * n) ltac:(lia)) as B.
  assert (Z : 0 <= K / INR m) by (apply Rmult_le_pos; [apply pos_INR|apply inv_nonneg]). fold K.
  set (Y := K * INR n / (INR m - 1)) in *. replace Y with (ln (4 / 3) + (Y - ln (4 / 3))) in G by ring.
  apply Rle_trans with ((1 - exp (- (ln (4 / 3) + (Y - ln (4 / 3)))) + K / INR m) ^ k); [apply pow_incr; lra|].
  apply Rle_trans with (1 := quarter_bound (Y - ln (4 / 3)) (K / INR m) k ltac:(lra)). apply exp_le, Req_le. fold K. unfold Y. field. lra.
Qed.
Lemma filter_exp b m k n A B : (0 < b)%nat -> 0 <= B -> (forall c, ideal_rate m k c <= exp (A + B * INR c)) ->
  ideal_filter_rate b m k n <= exp (A + INR n / INR b * (exp B - 1)).
Proof.
  intros Pb B0 HE. unfold ideal_filter_rate. rewrite seq_avg. assert (b0 : 0 < INR b) by (apply lt_0_INR; lia).
  assert (E0 : 0 <= (exp B - 1) / INR b). { apply Rmult_le_pos; [pose proof (exp_ge_1 B); lra|apply inv_nonneg]. }
  apply Rle_trans with (avg b (fun _ => exp (A + INR n / INR b * (exp B - 1)))); [|rewrite avg_const by exact Pb; lra].
  apply avg_le. intros q Q. apply Rle_trans with (avg_seq b n [] (fun s => exp (A + B * INR (count_in q s)))).
  - apply seq_le; [constructor|]. intros s _ _. apply HE.
  - rewrite (seq_exp b q A B Q). unfold count_in. cbn [filter length INR]. rewrite Rmult_0_r, Rplus_0_r, exp_plus.
    apply Rmult_le_compat_l; [apply Rlt_le, exp_pos|]. replace (INR n / INR b * (exp B - 1)) with (INR n * ((exp B - 1) / INR b)) by (field; lra).
    rewrite <- exp_pow. apply pow_incr. split; [lra|apply exp_ge_1].
Qed.
Lemma filter_upper4 b m k n : (0 < b)%nat -> (1 < m)%nat -> let K := INR k in let B := 3 * (K * K) / (INR m - 1) in
  ideal_filter_rate b m k n <= exp (4 * (K * K) / INR m - K * (2 * ln 2 + 3 * ln (4 / 3)) + INR n / INR b * (exp B - 1)).
Proof.
  intros Pb M K B. assert (m1 : 1 < INR m) by (apply (lt_INR 1); lia). apply filter_exp; [exact Pb| |].
  - unfold B, Rdiv. apply Rmult_le_pos; [|apply Rlt_le, Rinv_0_lt_compat; lra]. apply Rmult_le_pos; [lra|apply Rle_0_sqr].
  - intro c. apply (ideal_exp4 m k c M).
Qed.
Lemma ln43 : 0.287 <= ln (4 / 3).
Proof.
  rewrite <- (ln_exp 0.287). apply P_Real.ln_le; [apply exp_pos|]. rewrite <- (Rinv_inv (exp 0.287)), <- exp_Ropp. replace (4 / 3) with (/ 0.75) by lra.
  apply Rinv_le_contravar; [lra|]. assert (E : exp (Ropp 0.287) = exp (- 0.287 / 64) ^ 64). { rewrite exp_pow. f_equal. rewrite INR_IZR_INZ. cbn [Z.of_nat Pos.of_succ_nat Pos.succ]. lra. } rewrite E.
  apply Rle_trans with ((1 + - 0.287 / 64) ^ 64); [lra|]. apply pow_incr. split; [lra|apply exp_ge_1].
Qed.

(** ** The exponent
    [B] bits per entry, [R] = [B] rounded, [k] hash functions, [c] entries per bucket, [r] = ln(1/p). *)
Lemma share_low B R k : 1.4 <= B -> R - 0.5001 <= B <= R + 0.5001 -> 1 <= k -> 0.2768 * R <= k -> 0.243 * B <= k.
Proof. intros. destruct (Rle_lt_dec B 4.115); lra. Qed.
Lemma share_high B z k : 1.4 <= B -> IZR z - 0.5001 <= B <= IZR z + 0.5001 -> IZR k <= 0.4386 * IZR z + 1 -> IZR k <= 1.02 * B.
Proof.
  intros HB HR Hk. destruct (Z.le_gt_cases z 2) as [Z|Z].
  - apply IZR_le in Z. assert (k <= 1)%Z by (apply Z.lt_succ_r, lt_IZR; cbn; lra). apply IZR_le in H. lra.
  - assert (3 <= z)%Z by lia. apply IZR_le in H. lra.
Qed.
Lemma exponent_low B k : 1 <= B <= 43.4 -> 0.243 * B <= k <= 0.45 * B ->
  4 * (k * k) / 32768 - 2.2472 * k + 3.00012 * (k * k) / B + 5.24 * ((k * k) * (k * k)) / (32768 * B) <= - (0.3604 * B).
Proof.
  intros HB HK. set (y := k / B). assert (E : k = y * B) by (unfold y; field; lra). assert (Y : 0.243 <= y <= 0.45).
  { split; (apply Rmult_le_reg_r with B; [lra|rewrite <- E; lra]). }
  clearbody y. subst k.
  replace (4 * (y * B * (y * B)) / 32768 - 2.2472 * (y * B) + 3.00012 * (y * B * (y * B)) / B + 5.24 * (y * B * (y * B) * (y * B * (y * B))) / (32768 * B))
    with (B * (4 / 32768 * B * (y * y) - 2.2472 * y + 3.00012 * (y * y) + 5.24 / 32768 * (B * B) * (y * y) * (y * y))) by (field; lra).
  replace (- (0.3604 * B)) with (B * (- 0.3604)) by lra. apply Rmult_le_compat_l; [lra|].
  assert (y2 : 0 <= y * y <= 0.693 * y - 0.10935) by nra. assert (y3 : y * y <= 0.2025) by nra. set (q := y * y) in *. clearbody q.
  assert (b2 : 0 <= B * B <= 1883.56) by nra. set (b := B * B) in *. clearbody b.
  assert (T1 : 4 / 32768 * B * q <= 0.0053 * q) by (apply Rmult_le_compat_r; lra).
  assert (T2 : 5.24 / 32768 * b * q * q <= 0.062 * q). { apply Rmult_le_compat_r; [lra|]. apply Rle_trans with (5.24 / 32768 * 1883.56 * 0.2025); [|lra]. apply Rmult_le_compat; lra. }
  lra.
Qed.
Lemma exponent_high B k : 1 <= B <= 43.4 -> k <= 20.3 -> 0.45 * B <= k <= 1.02 * B ->
  2 * (k * k) / 32768 - 1.3862 * k + 1.00004 * (k * k) / B + 0.5822 * ((k * k) * (k * k)) / (32768 * B) <= - (0.3604 * B).
Proof.
  intros HB K20 HK. set (y := k / B). assert (E : k = y * B) by (unfold y; field; lra). assert (Y : 0.45 <= y <= 1.02).
  { split; (apply Rmult_le_reg_r with B; [lra|rewrite <- E; lra]). }
  assert (K2 : k * k <= 412.09) by nra. clearbody y.
  replace (2 * (k * k) / 32768 - 1.3862 * k + 1.00004 * (k * k) / B + 0.5822 * (k * k * (k * k)) / (32768 * B))
    with (B * (2 / 32768 * B * (y * y) - 1.3862 * y + 1.00004 * (y * y) + 0.5822 / 32768 * (k * k) * (y * y))) by (rewrite E; field; lra).
  replace (- (0.3604 * B)) with (B * (- 0.3604)) by lra. apply Rmult_le_compat_l; [lra|].
  assert (y2 : 0 <= y * y <= 1.47 * y - 0.459) by nra. set (q := y * y) in *. clearbody q.
  assert (T1 : 2 / 32768 * B * q <= 0.0027 * q) by (apply Rmult_le_compat_r; lra).
  assert (T2 : 0.5822 / 32768 * (k * k) * q <= 0.0074 * q) by (apply Rmult_le_compat_r; lra). lra.
Qed.

(** The bucket part of the rate. *)
Lemma cached_filter b n c z k (r : R) : (0 < b)%nat -> INR n / INR b <= c -> 15 <= c -> let B := 32768 / c in 1.4 <= B <= 43.4 ->
  IZR z - 0.5001 <= B <= IZR z + 0.5001 -> (1 <= k)%nat -> 0.2768 * IZR z <= INR k -> INR k <= 0.4386 * IZR z + 1 -> r <= 0.4805 * B ->
  ideal_filter_rate b (N.to_nat 32768) k n <= exp (- (3 / 4 * r)).
Proof.
  intros Pb Hn C15 B HB HR K1 Kl Ku Hr. rewrite !INR_IZR_INZ in Kl, Ku. pose proof (share_high B z (Z.of_nat k) (proj1 HB) HR Ku) as SH.
  assert (K1' : 1 <= IZR (Z.of_nat k)) by (apply IZR_le; lia). pose proof (share_low B (IZR z) _ (proj1 HB) HR K1' Kl) as SL. rewrite <- INR_IZR_INZ in *.
  pose proof ln2_num as [Lo Hi]. pose proof ln43 as L43.
  assert (k20 : INR k <= 20.3) by lra. set (K := INR k) in *.
  assert (Ec : c = 32768 / B) by (unfold B; field; lra). assert (M : IZR (Z.of_N 32768) = 32768) by reflexivity.
  assert (KK : 0 <= K * K <= 412.09) by nra. assert (I : 0 < / B) by (apply Rinv_0_lt_compat; lra).
  destruct (Rle_lt_dec K (0.45 * B)) as [H|H].
  - apply Rle_trans with (1 := filter_upper4 b (N.to_nat 32768) k n Pb ltac:(lia)). apply exp_le. rewrite INR_N, M. fold K. replace (32768 - 1) with 32767 by lra.
    set (D := 3 * (K * K) / 32767). assert (D0 : 0 <= D <= 0.072) by (unfold D; lra). pose proof (exp_quad D D0) as EQ. pose proof (exp_ge_1 D) as EG.
    apply Rle_trans with (4 * (K * K) / 32768 - 2.2472 * K + c * (D + 0.582 * (D * D))).
    + apply Rplus_le_compat; [|apply Rle_trans with (c * (exp D - 1)); [apply Rmult_le_compat_r; lra|apply Rmult_le_compat_l; lra]].
      assert (2.2472 * K <= K * (2 * ln 2 + 3 * ln (4 / 3))); [|lra]. rewrite Rmult_comm. apply Rmult_le_compat_l; lra.
    + pose proof (exponent_low B K ltac:(lra) ltac:(lra)) as Q. assert (c * (D + 0.582 * (D * D)) <= 3.00012 * (K * K) / B + 5.24 * (K * K * (K * K)) / (32768 * B)); [|lra].
      rewrite Ec. unfold D. set (q := K * K) in *. clearbody q.
      replace (32768 / B * (3 * q / 32767 + 0.582 * (3 * q / 32767 * (3 * q / 32767)))) with (/ B * (32768 * (3 / 32767) * q + 32768 * 0.582 * (3 / 32767) * (3 / 32767) * (q * q))) by (field; lra).
      replace (3.00012 * q / B + 5.24 * (q * q) / (32768 * B)) with (/ B * (3.00012 * q + 5.24 / 32768 * (q * q))) by (field; lra).
      apply Rmult_le_compat_l; [lra|]. assert (0 <= q * q) by nra. set (qq := q * q) in *. clearbody qq. lra.
  - apply Rle_trans with (1 := filter_upper b (N.to_nat 32768) k n Pb ltac:(lia)). apply exp_le. rewrite INR_N, M. fold K. replace (32768 - 1) with 32767 by lra.
    set (D := K * K / 32767). assert (D0 : 0 <= D <= 0.072) by (unfold D; lra). pose proof (exp_quad D D0) as EQ. pose proof (exp_ge_1 D) as EG.
    apply Rle_trans with (2 * (K * K) / 32768 - 1.3862 * K + c * (D + 0.582 * (D * D))).
    + apply Rplus_le_compat; [|apply Rle_trans with (c * (exp D - 1)); [apply Rmult_le_compat_r; lra|apply Rmult_le_compat_l; lra]].
      assert (1.3862 * K <= 2 * K * ln 2); [|lra]. replace (2 * K * ln 2) with (2 * ln 2 * K) by ring. apply Rmult_le_compat_r; lra.
    + pose proof (exponent_high B K ltac:(lra) k20 ltac:(lra)) as Q. assert (c * (D + 0.582 * (D * D)) <= 1.00004 * (K * K) / B + 0.5822 * (K * K * (K * K)) / (32768 * B)); [|lra].
      rewrite Ec. unfold D. set (q := K * K) in *. clearbody q.
      replace (32768 / B * (q / 32767 + 0.582 * (q / 32767 * (q / 32767)))) with (/ B * (32768 * (1 / 32767) * q + 32768 * 0.582 * (1 / 32767) * (1 / 32767) * (q * q))) by (field; lra).
      replace (1.00004 * q / B + 0.5822 * (q * q) / (32768 * B)) with (/ B * (1.00004 * q + 0.5822 / 32768 * (q * q))) by (field; lra).
      apply Rmult_le_compat_l; [lra|]. assert (0 <= q * q) by nra. set (qq := q * q) in *. clearbody qq. lra.
Qed.
