(** Accuracy of the estimated number of entries. *)
From Coq Require Import Lia Reals Lra.
From Verif Require Import M_Base M_Float M_Util Spec_Real Spec_Count P_Base.
From Flocq Require Import Core BinarySingleNaN Relative.
From Verif Require Import P_Float P_FloatDiv P_Real P_Stats P_V2Size P_V2Sat.
Open Scope R_scope.

Lemma rnd_rel x : bpow radix2 (-1000) <= x -> Rabs (rnd x - x) <= eps * x.
Proof.
  intro H. pose proof (btw_rnd x H) as [A B]. apply Rabs_le. lra.
Qed.
Lemma rnd_1 : rnd 1 = 1. Proof. apply rnd_format, (format_int 1). lia. Qed.
Lemma bp1000 : 0 < bpow radix2 (-1000) <= bpow radix2 (-60).
Proof. split; [apply bpow_gt_0|apply bpow_le; lia]. Qed.
Lemma bp60 : bpow radix2 (-60) = / 1152921504606846976.
Proof. change (bpow radix2 (-60)) with (bpow radix2 (Z.opp 60)). rewrite bpow_opp. rewrite IZR_bpow by lia. reflexivity. Qed.
Lemma eps_num : eps = / 9007199254740992.
Proof. unfold eps. change (bpow radix2 (-53)) with (bpow radix2 (Z.opp 53)). rewrite bpow_opp. rewrite IZR_bpow by lia. reflexivity. Qed.
(** 1 - ones/bits, computed. *)
Lemma share_R m x : (1 <= m <= 1125899906842624)%N -> (x < m)%N -> let t := 1 - IZR (Z.of_N x) / IZR (Z.of_N m) in
  exists y, fval (f_sub f_one (f_div (f_of_u64 x) (f_of_u64 m))) y /\ 4 * eps <= t /\ t <= 1 /\ / IZR (Z.of_N m) <= t /\ Rabs (y - t) <= 2 * eps /\ 0 < y <= 1.
Proof.
  intros Hm Hx t. set (M := IZR (Z.of_N m)) in *. set (X := IZR (Z.of_N x)) in *. assert (M1 : 1 <= M <= 1125899906842624) by (split; apply IZR_le; lia). assert (X0 : 0 <= X) by (apply IZR_le; lia). assert (XM : X + 1 <= M) by (unfold X, M; rewrite <- (plus_IZR _ 1); apply IZR_le; lia).
  pose proof eps_small as [E0 E1]. pose proof eps_num as En. assert (Mi : 0 < / M) by (apply Rinv_0_lt_compat; lra). assert (MM : M * / M = 1) by (apply Rinv_r; lra).
  assert (Q : 0 <= X / M <= 1 - / M). { split; [apply Rmult_le_pos; lra|]. apply Rmult_le_reg_r with M; [lra|]. unfold Rdiv. rewrite Rmult_assoc, Rinv_l, Rmult_1_r by lra. rewrite Rmult_minus_distr_r, Rinv_l by lra. lra. }
  assert (M50 : / 1125899906842624 <= / M) by (apply Rinv_le; lra). assert (T : / M <= t <= 1) by (unfold t; lra).
  pose proof bp1000 as [B0 B1]. pose proof bp60 as B6.
  assert (Fq : fval (f_div (f_of_u64 x) (f_of_u64 m)) (rnd (X / M))). { apply fval_div; [apply fval_int; lia|apply fval_int; lia|fold M; lra|]. fold X M. rewrite Rabs_pos_eq by lra. apply Rle_trans with (bpow radix2 0); [change (bpow radix2 0) with 1; lra|apply bpow_le; lia]. }
  assert (Qe : Rabs (rnd (X / M) - X / M) <= eps * (X / M)). { destruct (Req_dec X 0) as [Z|Z]. - replace (X / M) with 0 by (rewrite Z; field; lra). rewrite rnd_0, Rminus_0_r, Rabs_R0. lra. - apply rnd_rel. assert (1 <= X). { unfold X in *. apply IZR_le. destruct x; [exfalso; apply Z; reflexivity|lia]. } assert (1 * / M <= X * / M) by (apply Rmult_le_compat_r; lra). unfold Rdiv. lra. }
  assert (Qm : eps * (X / M) <= eps * (1 - / M)) by (apply Rmult_le_compat_l; lra). set (q := rnd (X / M)) in *. apply Rabs_le_inv in Qe.
  assert (Q1 : 0 <= q <= 1). { split; [unfold q; rewrite <- rnd_0; apply rnd_le; lra|rewrite <- rnd_1; unfold q; apply rnd_le; lra]. }
  assert (Lo : / M / 2 <= 1 - q) by (rewrite En in *; lra).
  assert (S0 : Rabs (rnd (1 - q) - (1 - q)) <= eps * (1 - q)) by (apply rnd_rel; lra).
  assert (F1 : fval f_one 1) by exact (fval_int 1 ltac:(lia)).
  exists (rnd (1 - q)). split. { apply fval_sub; [exact F1|exact Fq|]. rewrite Rabs_pos_eq by lra. apply Rle_trans with (bpow radix2 0); [change (bpow radix2 0) with 1; lra|apply bpow_le; lia]. }
  apply Rabs_le_inv in S0. split; [rewrite En; lra|]. split; [lra|]. split; [lra|]. assert (ER : eps * (1 - q) <= eps * 1) by (apply Rmult_le_compat_l; lra). assert (EQ : eps * (X / M) <= eps * 1) by (apply Rmult_le_compat_l; lra). split.
  - apply Rabs_le. unfold t. lra.
  - split; [assert (eps * (1 - q) <= / 2 * (1 - q)) by (apply Rmult_le_compat_r; lra); clear - S0 H Lo Mi; lra|]. apply Rle_trans with (rnd 1); [|rewrite rnd_1; lra]. apply rnd_le. lra.
Qed.
(** Logarithms of neighbours. *)
Lemma ln_close y t d : 0 < y -> 0 < t -> Rabs (y - t) <= d -> 2 * d <= t -> Rabs (ln y - ln t) <= 2 * d / t.
Proof.
  intros Y T H D. assert (D0 : 0 <= d) by (apply Rle_trans with (2 := H); apply Rabs_pos). apply Rabs_le_inv in H. assert (Ti : 0 < / t) by now apply Rinv_0_lt_compat. apply Rabs_le. split.
  - assert (L : ln t - ln y <= t / y - 1). { replace (ln t - ln y) with (ln (t / y)) by (unfold Rdiv; rewrite ln_mult, ln_Rinv by auto with real; ring). apply ln_le_1. apply Rdiv_lt_0_compat; lra. }
    assert (t / y - 1 <= 2 * d / t). { apply Rmult_le_reg_r with (y * t); [apply Rmult_lt_0_compat; lra|]. replace ((t / y - 1) * (y * t)) with ((t - y) * t) by (field; lra). replace (2 * d / t * (y * t)) with (d * (2 * y)) by (field; lra). apply Rle_trans with (d * t); [apply Rmult_le_compat_r; lra|apply Rmult_le_compat_l; lra]. }
    lra.
  - assert (L : ln y - ln t <= y / t - 1). { replace (ln y - ln t) with (ln (y / t)) by (unfold Rdiv; rewrite ln_mult, ln_Rinv by auto with real; ring). apply ln_le_1. apply Rdiv_lt_0_compat; lra. }
    assert (y / t - 1 <= 2 * d / t). { apply Rmult_le_reg_r with t; [lra|]. replace ((y / t - 1) * t) with (y - t) by (field; lra). replace (2 * d / t * t) with (2 * d) by (field; lra). lra. }
    lra.
Qed.
Lemma ln_neg x : 0 < x <= 1 -> ln x <= 0.
Proof. intros [A B]. rewrite <- ln_1. apply ln_le; lra. Qed.
(** The computed estimate is the integer part of a number near the ideal one. *)
Lemma est_R L m x k : libm_accurate L -> (1 <= m <= 1125899906842624)%N -> (x < m)%N -> (1 <= k <= 9007199254740992)%N ->
  let t := 1 - IZR (Z.of_N x) / IZR (Z.of_N m) in
  exists v, Z.of_N (estimate_count L m x k) = Zfloor v /\ 0 <= v /\ Rabs (v - ideal_count m x k) <= IZR (Z.of_N m) / IZR (Z.of_N k) * (5 * eps / t) + 12 * eps * ideal_count m x k.
Proof.
  intros HL Hm Hx Hk t. destruct (share_R m x Hm Hx) as (y & Fy & T4 & T1 & TM & Yt & Y0 & Y1). fold t in T4, T1, TM, Yt. unfold ideal_count. fold t.
  set (M := IZR (Z.of_N m)) in *. set (K := IZR (Z.of_N k)) in *. assert (M1 : 1 <= M <= 1125899906842624) by (split; apply IZR_le; lia). assert (K1 : 1 <= K <= 9007199254740992) by (split; apply IZR_le; lia).
  pose proof eps_small as [E0 E1]. pose proof eps_num as En. pose proof bp1000 as [B0 B1]. pose proof bp60 as B6. assert (T0 : 0 < t) by lra.
  assert (Dom : f_leb (sf_of_bits bits_min_positive) (f_sub f_one (f_div (f_of_u64 x) (f_of_u64 m))) = true /\ f_leb (f_sub f_one (f_div (f_of_u64 x) (f_of_u64 m))) f_one = true).
  { assert (Yl : 2 * eps <= y) by (apply Rabs_le_inv in Yt; lra). split.
    - assert (Fm : fval (sf_of_bits bits_min_positive) (sf_R (sf_of_bits bits_min_positive))) by (apply sf_fin_fval; split; [vm_compute; reflexivity|exact Logic.I]). apply (R_f_leb _ _ _ _ Fm Fy).
      assert (Sm : sf_R (sf_of_bits bits_min_positive) <= 2 * eps). { pose proof (fpp_real bits_min_positive ltac:(vm_compute; reflexivity)) as [Fp _]. assert (S : sf_of_bits bits_min_positive = S754_finite false 4503599627370496 (-1074)) by (vm_compute; reflexivity). rewrite S. unfold sf_R. replace (powerRZ 2 (-1074)) with (bpow radix2 (-1074)) by (rewrite bpow_powerRZ; reflexivity). replace (IZR 4503599627370496) with (bpow radix2 52) by (rewrite IZR_bpow by lia; reflexivity). rewrite <- bpow_plus. apply Rle_trans with (bpow radix2 (-53)); [apply bpow_le; lia|]. fold eps. lra. }
      lra.
    - apply (R_f_leb _ _ _ 1 Fy (fval_int 1 ltac:(lia))). exact Y1. }
  pose proof (fval_fin _ _ Fy) as [Vy _]. pose proof (proj1 HL _ Vy (proj1 Dom) (proj2 Dom)) as Nr. rewrite (fval_R _ _ Fy) in Nr.
  pose proof (sf_fin_fval _ (proj1 Nr)) as Fl. set (z := sf_R (lm_ln L (f_sub f_one (f_div (f_of_u64 x) (f_of_u64 m))))) in *.
  assert (Lc : Rabs (ln y - ln t) <= 4 * eps / t). { replace (4 * eps / t) with (2 * (2 * eps) / t) by (field; lra). apply ln_close; lra. }
  assert (Ln0 : 0 <= - ln t) by (pose proof (ln_neg t ltac:(lra)); lra).
  assert (Fm' : fval (f_of_u64 m) M) by (apply fval_int; lia). assert (Fk : fval (f_of_u64 k) K) by (apply fval_int; lia).
  assert (MK : 0 < M / K) by (apply Rdiv_lt_0_compat; lra).
  (* size of the logarithm *)
  assert (Lb : - ln t <= 50). { assert (L1 : ln (/ M) <= ln t) by (apply ln_le; [apply Rinv_0_lt_compat; lra|exact TM]). rewrite ln_Rinv in L1 by lra. assert (L2 : ln M <= ln (bpow radix2 50)). { apply ln_le; [lra|]. rewrite IZR_bpow by lia. change (2 ^ 50)%Z with 1125899906842624%Z. lra. } rewrite ln_bpow in L2. pose proof ln2_hi. lra. }
  assert (Lby : - ln y <= 51) by (assert (4 * eps / t <= 1) by (apply Rmult_le_reg_r with t; [lra|]; unfold Rdiv; rewrite Rmult_assoc, Rinv_l by lra; lra); apply Rabs_le_inv in Lc; lra).
  assert (Lny : 0 <= - ln y) by (pose proof (ln_neg y ltac:(lra)); lra).
  assert (V : exists v, fval (f_div (f_opp (f_mul (f_of_u64 m) (lm_ln L (f_sub f_one (f_div (f_of_u64 x) (f_of_u64 m)))))) (f_of_u64 k)) v /\ btw v (M / K * (- ln y)) 12).
  { destruct (Req_dec y 1) as [->|Yn].
    - (* logarithm zero *)
      rewrite ln_1 in *. assert (z = 0). { destruct Nr as [_ Nr]. fold z in Nr. rewrite ?ln_1 in Nr. rewrite Rabs_R0, Rmult_0_r, Rminus_0_r in Nr. destruct (Req_dec z 0) as [|C]; [assumption|]. apply Rabs_no_R0 in C. pose proof (Rabs_pos z). lra. } rewrite H in Fl.
      assert (F1 : fval (f_mul (f_of_u64 m) (lm_ln L (f_sub f_one (f_div (f_of_u64 x) (f_of_u64 m))))) (rnd (M * 0))) by (apply fval_mul; auto; rewrite Rmult_0_r, Rabs_R0; apply bpow_ge_0). rewrite Rmult_0_r, rnd_0 in F1. apply fval_opp in F1.
      pose proof (fval_div _ _ _ _ F1 Fk ltac:(lra) ltac:(replace (- 0 / K) with 0 by (field; lra); rewrite Rabs_R0; apply bpow_ge_0)) as F2. replace (- 0 / K) with 0 in F2 by (field; lra). rewrite rnd_0 in F2. exists 0. split; [exact F2|]. unfold btw. rewrite Ropp_0, Rmult_0_r. lra.
    - assert (Yg : eps <= 1 - y). { apply format_below_1; [exact (fval_format _ _ Fy)|lra]. } assert (Lg : eps <= - ln y) by (pose proof (ln_le_1 y Y0); lra).
      pose proof (near_btw_neg _ _ Nr ltac:(lra)) as Bz. fold z in Bz. assert (Zp : eps / 2 <= - z <= 60). { destruct Bz as [Bl Bh]. split; [apply Rle_trans with (2 := Bl)|apply Rle_trans with (1 := Bh)]. - apply Rle_trans with (eps * (1 - 8 * eps)); [assert (eps * (8 * eps) <= eps * / 2) by (apply Rmult_le_compat_l; lra); lra|apply Rmult_le_compat_r; lra]. - apply Rle_trans with (51 * (1 + 8 * eps)); [apply Rmult_le_compat_r; lra|lra]. }
      assert (Pp : eps / 2 <= M * - z <= 67553994410557440). { split; [rewrite <- (Rmult_1_l (eps / 2)); apply Rmult_le_compat; lra|apply Rle_trans with (1125899906842624 * 60); [apply Rmult_le_compat; lra|lra]]. }
      assert (Big : bpow radix2 60 <= bpow radix2 1023) by (apply bpow_le; lia). assert (B60 : bpow radix2 60 = 1152921504606846976) by (rewrite IZR_bpow by lia; reflexivity).
      assert (F1 : fval (f_mul (f_of_u64 m) (lm_ln L (f_sub f_one (f_div (f_of_u64 x) (f_of_u64 m))))) (rnd (M * z))). { apply fval_mul; auto. replace (M * z) with (- (M * - z)) by ring. rewrite Rabs_Ropp, Rabs_pos_eq by lra. lra. }
      apply fval_opp in F1. assert (Ro : - rnd (M * z) = rnd (M * - z)). { unfold rnd. rewrite <- round_NE_opp. f_equal. ring. } rewrite Ro in F1.
      assert (Rp : eps / 4 <= rnd (M * - z) <= 100000000000000000). { pose proof (btw_rnd (M * - z) ltac:(rewrite En in *; lra)) as [Rl Rh]. split; [apply Rle_trans with (2 := Rl)|apply Rle_trans with (1 := Rh)]. - apply Rle_trans with (eps / 2 * (1 - 1 * eps)); [assert (eps / 2 * eps <= eps / 2 * / 2) by (apply Rmult_le_compat_l; lra); lra|apply Rmult_le_compat_r; lra]. - apply Rle_trans with (67553994410557440 * (1 + 1 * eps)); [apply Rmult_le_compat_r; lra|lra]. }
      pose proof (btw_rnd (M * - z) ltac:(rewrite En in *; lra)) as R1. set (w := rnd (M * - z)) in *.
      assert (Ki : / 9007199254740992 <= / K <= 1) by (split; [apply Rinv_le; lra|rewrite <- Rinv_1; apply Rinv_le; lra]).
      assert (Wk : eps / 4 * / 9007199254740992 <= w / K <= 100000000000000000). { split; [apply Rmult_le_compat; lra|]. apply Rle_trans with (100000000000000000 * 1); [apply Rmult_le_compat; lra|lra]. }
      assert (F2 : fval (f_div (f_opp (f_mul (f_of_u64 m) (lm_ln L (f_sub f_one (f_div (f_of_u64 x) (f_of_u64 m)))))) (f_of_u64 k)) (rnd (w / K))). { apply fval_div; auto; [lra|]. rewrite Rabs_pos_eq; [lra|]. assert (0 <= eps / 4 * / 9007199254740992) by (apply Rmult_le_pos; lra). lra. }
      exists (rnd (w / K)). split; [exact F2|].
      assert (S120 : bpow radix2 (-1000) <= w / K). { apply Rle_trans with (2 := proj1 Wk). apply Rle_trans with (bpow radix2 (-200)); [apply bpow_le; lia|]. unfold eps. replace (bpow radix2 (-53) / 4) with (bpow radix2 (-55)) by (change (-53)%Z with (-55 + 2)%Z; rewrite bpow_plus; change (bpow radix2 2) with 4; field). replace (/ 9007199254740992) with (bpow radix2 (-53)) by (rewrite <- eps_num; reflexivity). rewrite <- bpow_plus. apply bpow_le. lia. }
      pose proof (btw_rnd _ S120) as R2.
      assert (A1 : btw (M * - z) (M * - ln y) 8) by (destruct Bz as [Bl Bh]; split; rewrite Rmult_assoc; apply Rmult_le_compat_l; lra).
      assert (Mp : 0 < M * - ln y) by (apply Rmult_lt_0_compat; lra).
      pose proof (btw_trans _ _ _ _ _ R1 A1 Mp ltac:(lra) ltac:(lra)) as A2.
      assert (A3 : btw (w / K) (M / K * - ln y) 10). { destruct A2 as [Al Ah]. replace (M / K * - ln y) with (M * - ln y * / K) by (unfold Rdiv; ring). split; rewrite (Rmult_comm (M * - ln y)), Rmult_assoc, Rmult_comm; unfold Rdiv; apply Rmult_le_compat_r; lra. }
      pose proof (btw_trans _ _ _ _ _ R2 A3 ltac:(apply Rmult_lt_0_compat; lra) ltac:(lra) ltac:(lra)) as A4. apply btw_weaken with (1 := A4); [apply Rmult_le_pos; lra|lra]. }
  destruct V as (v & Fv & Bv). set (a := M / K * - ln y) in *. assert (A0 : 0 <= a) by (apply Rmult_le_pos; lra).
  assert (MKb : M / K <= 1125899906842624). { unfold Rdiv. rewrite <- (Rmult_1_r 1125899906842624). apply Rmult_le_compat; [lra|left; apply Rinv_0_lt_compat; lra|lra|rewrite <- Rinv_1; apply Rinv_le; lra]. }
  assert (Ab : a <= 57420895248973824) by (apply Rle_trans with (1125899906842624 * 51); [apply Rmult_le_compat; lra|lra]).
  assert (Ae : a * (12 * eps) <= a * / 2) by (apply Rmult_le_compat_l; lra). destruct Bv as [Bl Bh]. rewrite Rmult_minus_distr_l, Rmult_1_r in Bl. rewrite Rmult_plus_distr_l, Rmult_1_r in Bh.
  exists v. split; [|split; [lra|]].
  - unfold estimate_count. rewrite (fval_to_u64 _ _ Fv) by lra. apply Z.min_r. apply Z.le_trans with (Zfloor 100000000000000000); [apply Zfloor_le; lra|]. rewrite Zfloor_IZR. lia.
  - set (i := - (M / K * ln t)). assert (Ai : Rabs (a - i) <= M / K * (4 * eps / t)). { unfold a, i. replace (M / K * - ln y - - (M / K * ln t)) with (M / K * - (ln y - ln t)) by ring. rewrite Rabs_mult, Rabs_Ropp, (Rabs_pos_eq (M / K)) by lra. apply Rmult_le_compat_l; lra. }
    set (u := eps / t) in *. replace (4 * eps / t) with (4 * u) in Ai by (unfold u; field; lra). replace (5 * eps / t) with (5 * u) by (unfold u; field; lra). assert (U0 : 0 <= u) by (apply Rmult_le_pos; [lra|left; apply Rinv_0_lt_compat; lra]).
    set (b := M / K * u) in *. replace (M / K * (4 * u)) with (4 * b) in Ai by (unfold b; ring). replace (M / K * (5 * u)) with (5 * b) by (unfold b; ring). assert (Bb : 0 <= b) by (apply Rmult_le_pos; lra).
    assert (eps * (4 * b) <= / 1000000 * (4 * b)) by (apply Rmult_le_compat_r; lra). apply Rabs_le_inv in Ai. assert (eps * a <= eps * (i + 4 * b)) by (apply Rmult_le_compat_l; lra). apply Rabs_le. lra.
Qed.

(** ** Bounds for the ideal number *)
Lemma ln_lower u : 0 <= u < 1 -> u + u * u / 4 <= - ln (1 - u).
Proof.
  intros [U0 U1]. set (r := sqrt (1 - u)). assert (R0 : 0 < r) by (apply sqrt_lt_R0; lra). assert (RR : r * r = 1 - u) by (apply sqrt_sqrt; lra).
  assert (E : ln (1 - u) = 2 * ln r) by (rewrite <- RR, ln_mult by assumption; ring). rewrite E. pose proof (ln_le_1 r R0) as L.
  assert (H : r <= 1 - u / 2 - u * u / 8).
  { apply Rsqr_incr_0_var; [|assert (u * u <= 1 * 1) by (apply Rmult_le_compat; lra); lra]. unfold Rsqr. rewrite RR. replace ((1 - u / 2 - u * u / 8) * (1 - u / 2 - u * u / 8)) with (1 - u + u * (u * u) / 8 + (u * u) * (u * u) / 64) by field.
    assert (0 <= u * (u * u)) by (repeat apply Rmult_le_pos; lra). assert (0 <= (u * u) * (u * u)) by (repeat apply Rmult_le_pos; lra). lra. }
  lra.
Qed.
Lemma ln_upper u : 0 <= u < 1 -> - ln (1 - u) <= u / (1 - u).
Proof.
  intros [U0 U1]. rewrite <- ln_Rinv by lra. apply Rle_trans with (1 := ln_le_1 (/ (1 - u)) ltac:(apply Rinv_0_lt_compat; lra)). right. field. lra.
Qed.
(** Few entries without collisions are counted exactly. *)
Lemma est_zero L m k : libm_accurate L -> (1 <= m <= 1125899906842624)%N -> (1 <= k <= 9007199254740992)%N -> estimate_count L m 0 k = 0%N.
Proof.
  intros HL Hm Hk. destruct (est_R L m 0 k HL Hm ltac:(lia) Hk) as (v & E & V0 & V). unfold ideal_count in V. cbn [Z.of_N] in V.
  set (M := IZR (Z.of_N m)) in *. set (K := IZR (Z.of_N k)) in *. assert (M1 : 1 <= M <= 1125899906842624) by (split; apply IZR_le; lia). assert (K1 : 1 <= K) by (apply IZR_le; lia).
  replace (1 - 0 / M) with 1 in V by (field; lra). rewrite ln_1, Rmult_0_r, Ropp_0, Rmult_0_r, Rminus_0_r, Rplus_0_r in V. rewrite Rabs_pos_eq in V by exact V0. rewrite eps_num in V.
  assert (MK : M / K <= 1125899906842624). { unfold Rdiv. rewrite <- (Rmult_1_r 1125899906842624). apply Rmult_le_compat; [lra|left; apply Rinv_0_lt_compat; lra|lra|rewrite <- Rinv_1; apply Rinv_le; lra]. }
  assert (M / K * (5 * / 9007199254740992 / 1) <= 1125899906842624 * (5 * / 9007199254740992 / 1)) by (apply Rmult_le_compat_r; lra).
  apply N2Z.inj. rewrite E. apply Zfloor_imp. change (IZR (Z.of_N 0)) with 0. change (IZR (Z.of_N 0 + 1)) with 1. lra.
Qed.
Lemma est_exact L m k n : libm_accurate L -> (1 <= k)%N -> (1 <= n)%N -> (2 * k * n * (n + 1) <= m)%N -> (m <= 4194304 * k * n)%N -> (m <= 1125899906842624)%N -> estimate_count L m (k * n) k = n.
Proof.
  intros HL Hk Hn Hl Hu Hm.
  assert (Kn : (1 <= k * n)%N) by (rewrite <- (N.mul_1_l 1); now apply N.mul_le_mono). assert (L4 : (4 * (k * n) <= m)%N). { apply N.le_trans with (2 := Hl). replace (2 * k * n * (n + 1))%N with ((k * n) * (2 * (n + 1)))%N by ring. rewrite (N.mul_comm 4). apply N.mul_le_mono_l. lia. }
  assert (Nb : (n + 1 <= 2097152)%N). { destruct (N.le_gt_cases (n + 1) 2097152) as [|C]; [assumption|]. exfalso. assert ((k * n) * (2 * 2097152) < (k * n) * (2 * (n + 1)))%N by (apply N.mul_lt_mono_pos_l; lia). replace (2 * k * n * (n + 1))%N with ((k * n) * (2 * (n + 1)))%N in Hl by ring. replace (4194304 * k * n)%N with ((k * n) * (2 * 2097152))%N in Hu by ring. lia. }
  assert (Kb : (k <= k * n)%N) by (rewrite <- (N.mul_1_r k) at 1; now apply N.mul_le_mono_l).
  destruct (est_R L m (k * n) k HL ltac:(lia) ltac:(lia) ltac:(lia)) as (v & E & V0 & V). unfold ideal_count in V. rewrite N2Z.inj_mul, mult_IZR in V.
  set (M := IZR (Z.of_N m)) in *. set (K := IZR (Z.of_N k)) in *. set (n_ := IZR (Z.of_N n)) in *.
  assert (M1 : 1 <= M <= 1125899906842624) by (split; apply IZR_le; lia). assert (K1 : 1 <= K) by (apply IZR_le; lia). assert (N1 : 1 <= n_ <= 2097152) by (split; apply IZR_le; lia).
  assert (RL : 2 * K * n_ * (n_ + 1) <= M) by (unfold K, n_, M; rewrite <- plus_IZR, <- !mult_IZR; apply IZR_le; lia). assert (RU : M <= 4194304 * K * n_) by (unfold K, n_, M; rewrite <- !mult_IZR; apply IZR_le; lia). assert (R4 : 4 * (K * n_) <= M) by (unfold K, n_, M; rewrite <- !mult_IZR; apply IZR_le; lia).
  assert (KN : 0 < K * n_) by (apply Rmult_lt_0_compat; lra). set (u := K * n_ / M) in *. assert (MM : M * / M = 1) by (apply Rinv_r; lra). assert (Mi : 0 < / M) by (apply Rinv_0_lt_compat; lra).
  assert (U : / 4194304 <= u <= / 4). { unfold u, Rdiv. split; apply Rmult_le_reg_r with M; try lra; rewrite Rmult_assoc, (Rmult_comm (/ M)), MM; lra. }
  assert (MKu : M / K * u = n_) by (unfold u; field; lra). assert (MK0 : 0 < M / K) by (apply Rdiv_lt_0_compat; lra). assert (Nu : 2 * (n_ * u) <= 1). { unfold u, Rdiv. apply Rmult_le_reg_r with M; [lra|]. replace (2 * (n_ * (K * n_ * / M)) * M) with (2 * (K * n_ * n_) * (M * / M)) by ring. rewrite MM. assert (2 * K * n_ * (n_ + 1) = 2 * (K * n_ * n_) + 2 * (K * n_)) by ring. lra. }
  pose proof (ln_lower u ltac:(lra)) as Lo. pose proof (ln_upper u ltac:(lra)) as Up.
  set (i := - (M / K * ln (1 - u))) in *. assert (IL : n_ + n_ * u / 4 <= i). { unfold i. replace (- (M / K * ln (1 - u))) with (M / K * - ln (1 - u)) by ring. apply Rle_trans with (M / K * (u + u * u / 4)); [right; rewrite <- MKu; field; lra|apply Rmult_le_compat_l; lra]. }
  assert (U34 : u / (1 - u) <= u + 4 / 3 * (u * u)). { apply Rmult_le_reg_r with (1 - u); [lra|]. unfold Rdiv. rewrite Rmult_assoc, Rinv_l, Rmult_1_r by lra. assert (u * u * u <= u * u * / 4) by (apply Rmult_le_compat_l; [apply Rmult_le_pos; lra|lra]). lra. }
  assert (IU : i <= n_ + 2 / 3). { unfold i. replace (- (M / K * ln (1 - u))) with (M / K * - ln (1 - u)) by ring. apply Rle_trans with (M / K * (u + 4 / 3 * (u * u))); [apply Rmult_le_compat_l; lra|]. replace (M / K * (u + 4 / 3 * (u * u))) with (M / K * u + 4 / 3 * (M / K * u * u)) by ring. rewrite MKu. lra. }
  assert (MKn : M / K <= 4194304 * n_). { unfold Rdiv. apply Rmult_le_reg_r with K; [lra|]. rewrite Rmult_assoc, Rinv_l by lra. lra. }
  assert (T : eps / (1 - u) <= 4 / 3 * eps). { apply Rmult_le_reg_r with (1 - u); [lra|]. unfold Rdiv. rewrite Rmult_assoc, Rinv_l by lra. pose proof eps_small. assert (eps * u <= eps * / 4) by (apply Rmult_le_compat_l; lra). lra. }
  pose proof eps_small as [E0 E1]. assert (Er1 : M / K * (5 * eps / (1 - u)) <= n_ * / 268435456). { replace (5 * eps / (1 - u)) with (5 * (eps / (1 - u))) by (field; lra). apply Rle_trans with (4194304 * n_ * (5 * (4 / 3 * eps))); [apply Rmult_le_compat; [lra|assert (0 <= eps / (1 - u)) by (apply Rmult_le_pos; [lra|left; apply Rinv_0_lt_compat; lra]); lra|lra|lra]|]. rewrite eps_num. lra. }
  assert (Er2 : 12 * eps * i <= n_ * / 268435456). { apply Rle_trans with (12 * eps * (n_ + 2 / 3)); [apply Rmult_le_compat_l; lra|]. rewrite eps_num. lra. }
  assert (Nm : n_ * / 16777216 <= n_ * u / 4) by (unfold Rdiv; rewrite Rmult_assoc; apply Rmult_le_compat_l; lra).
  apply Rabs_le_inv in V. apply N2Z.inj. rewrite E. apply Zfloor_imp. rewrite plus_IZR. fold n_. lra.
Qed.
(** The estimate of a bucket. *)
Lemma est_bucket L x k : libm_accurate L -> (x < 32768)%N -> (1 <= k <= 9007199254740992)%N ->
  exists v, Z.of_N (estimate_count L 32768 x k) = Zfloor v /\ 0 <= v /\ Rabs (v - ideal_count 32768 x k) <= / 500000 * / IZR (Z.of_N k).
Proof.
  intros HL Hx Hk. destruct (est_R L 32768 x k HL ltac:(lia) Hx Hk) as (v & E & V0 & V). exists v. split; [exact E|]. split; [exact V0|]. apply Rle_trans with (1 := V). unfold ideal_count. set (K := IZR (Z.of_N k)) in *. set (X := IZR (Z.of_N x)) in *. change (IZR (Z.of_N 32768)) with 32768 in *.
  assert (K1 : 1 <= K) by (apply IZR_le; lia). assert (X1 : 0 <= X <= 32767) by (split; apply IZR_le; lia). set (t := 1 - X / 32768) in *. assert (T : / 32768 <= t <= 1) by (unfold t; lra).
  assert (Ti : 0 < / t <= 32768). { split; [apply Rinv_0_lt_compat; lra|]. replace 32768 with (/ / 32768) by field. apply Rinv_le; lra. }
  assert (L0 : 0 <= - ln t <= 15). { split; [pose proof (ln_neg t ltac:(lra)); lra|]. assert (H : ln (/ 32768) <= ln t) by (apply ln_le; lra). rewrite ln_Rinv in H by lra. replace 32768 with (bpow radix2 15) in H by (rewrite IZR_bpow by lia; reflexivity). rewrite ln_bpow in H. pose proof ln2_hi. lra. }
  pose proof eps_small as [E0 E1]. assert (Ki : 0 < / K) by (apply Rinv_0_lt_compat; lra).
  replace (32768 / K * (5 * eps / t) + 12 * eps * - (32768 / K * ln t)) with ((163840 * eps * / t + 393216 * eps * - ln t) * / K) by (field; lra). apply Rmult_le_compat_r; [lra|].
  assert (eps * / t <= eps * 32768) by (apply Rmult_le_compat_l; lra). assert (eps * - ln t <= eps * 15) by (apply Rmult_le_compat_l; lra). rewrite eps_num in *. lra.
Qed.
Lemma est_bucket_lower L x k : libm_accurate L -> (x < 32768)%N -> (1 <= k <= 9007199254740992)%N -> (x / k <= estimate_count L 32768 x k)%N.
Proof.
  intros HL Hx Hk. destruct (N.eq_dec x 0) as [->|X0]; [rewrite N.div_0_l by lia; apply N.le_0_l|]. destruct (est_bucket L x k HL Hx Hk) as (v & E & V0 & V). unfold ideal_count in V. set (K := IZR (Z.of_N k)) in *. set (X := IZR (Z.of_N x)) in *. change (IZR (Z.of_N 32768)) with 32768 in V.
  assert (K1 : 1 <= K) by (apply IZR_le; lia). assert (X1 : 1 <= X <= 32767) by (split; apply IZR_le; lia). assert (Ki : 0 < / K) by (apply Rinv_0_lt_compat; lra).
  pose proof (ln_lower (X / 32768) ltac:(lra)) as Lo. assert (I : X * / K + / 131072 * / K <= - (32768 / K * ln (1 - X / 32768))).
  { replace (- (32768 / K * ln (1 - X / 32768))) with (32768 * / K * - ln (1 - X / 32768)) by (field; lra). apply Rle_trans with (32768 * / K * (X / 32768 + X / 32768 * (X / 32768) / 4)); [|apply Rmult_le_compat_l; lra].
    replace (32768 * / K * (X / 32768 + X / 32768 * (X / 32768) / 4)) with (X * / K + X * X / 131072 * / K) by (field; lra). apply Rplus_le_compat_l. apply Rmult_le_compat_r; [lra|]. assert (1 * 1 <= X * X) by (apply Rmult_le_compat; lra). lra. }
  assert (XV : X * / K <= v) by (apply Rabs_le_inv in V; lra).
  apply N2Z.inj_le. rewrite E. apply Zfloor_lub. apply Rle_trans with (2 := XV). rewrite N2Z.inj_div. apply Rmult_le_reg_r with K; [lra|]. rewrite Rmult_assoc, Rinv_l, Rmult_1_r by lra. unfold K, X. rewrite <- mult_IZR. apply IZR_le. rewrite Z.mul_comm. apply Z.mul_div_le. lia.
Qed.
