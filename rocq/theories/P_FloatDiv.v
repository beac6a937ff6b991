(** Quotients of integers in binary64. *)
From Coq Require Import Reals Lia Lra.
From Verif Require Import M_Util P_Base.
From Flocq Require Import Core BinarySingleNaN Operations Ulp Relative.
From Verif Require Import P_Float.
Open Scope R_scope.

Lemma fval_pos_finite a x : fval a x -> 0 < x -> exists m e, a = S754_finite false m e.
Proof.
  intros (p & <- & Fp & <-) Hx. destruct p as [s|s| |s m e Hb]; try discriminate; cbn in Hx; try lra.
  destruct s; [|exists m, e; reflexivity]. exfalso. unfold F2R in Hx. cbn [Fnum Fexp cond_Zopp] in Hx.
  assert (IZR (- Zpos m) < 0) by (apply IZR_lt; lia). pose proof (bpow_gt_0 radix2 e). nra.
Qed.
Lemma rnd_ge_1 z : (1 <= z)%Z -> 1 <= rnd (IZR z).
Proof. intro H. rewrite <- (rnd_format 1). apply rnd_le. now apply IZR_le. apply format_int; lia. Qed.
Lemma rnd_pos x : bpow radix2 (-1000) <= x -> bpow radix2 (-1000) <= rnd x.
Proof.
  intro H. rewrite <- (rnd_format (bpow radix2 (-1000))). now apply rnd_le.
  replace (bpow radix2 (-1000)) with (1 * bpow radix2 (-1000)) by ring. apply (format_spec 1); lia.
Qed.
Lemma div_zero a m e : a = S754_finite false m e -> f_div a (f_of_u64 0) = S754_infinity false.
Proof. intros ->. reflexivity. Qed.

(** ceil(a / b) as u64, at least 1 when a is at least 1, whatever b (0 gives infinity, which saturates). *)
Lemma ceil_quot_pos a x b : fval a x -> bpow radix2 (-900) <= x <= bpow radix2 900 -> (b < two64)%N ->
  (1 <= f_to_u64 (f_ceil (f_div a (f_of_u64 b))))%N.
Proof.
  intros Fa Hx Hb. pose proof (bpow_gt_0 radix2 (-900)) as P900.
  destruct (N.eq_dec b 0) as [->|Nb].
  - destruct (fval_pos_finite _ _ Fa) as (m & e & E); [lra|]. rewrite (div_zero _ _ _ E). cbn. unfold u64_max. lia.
  - assert (B1 : 1 <= rnd (IZR (Z.of_N b))) by (apply rnd_ge_1; lia).
    pose proof (rnd_u64_bounds b Hb) as [_ B2].
    set (y := rnd (IZR (Z.of_N b))) in *.
    assert (Q1 : bpow radix2 (-1000) <= x / y).
    { apply Rle_trans with (bpow radix2 (-900) / bpow radix2 64).
      - unfold Rdiv. rewrite <- bpow_opp, <- bpow_plus. apply bpow_le. lia.
      - unfold Rdiv. apply Rmult_le_compat; try lra. rewrite <- bpow_opp. apply bpow_ge_0. apply Rinv_le; lra. }
    assert (Q2 : x / y <= bpow radix2 900).
    { apply Rle_trans with (x / 1); [|lra]. unfold Rdiv. apply Rmult_le_compat_l; [lra|]. apply Rinv_le; lra. }
    assert (Q0 : 0 < x / y). { pose proof (bpow_gt_0 radix2 (-1000)). lra. }
    assert (D : fval (f_div a (f_of_u64 b)) (rnd (x / y))).
    { apply fval_div; auto. now apply fval_of_u64. lra. rewrite Rabs_pos_eq by lra. apply Rle_trans with (1 := Q2). apply bpow_le; lia. }
    apply rnd_pos in Q1. pose proof (bpow_gt_0 radix2 (-1000)) as P.
    assert (C : (1 <= Zceil (rnd (x / y)))%Z).
    { assert (0 < Zceil (rnd (x / y)))%Z; [|lia]. apply lt_IZR. apply Rlt_le_trans with (rnd (x / y)); [lra|apply Zceil_ub]. }
    assert (Z.of_N (f_to_u64 (f_ceil (f_div a (f_of_u64 b)))) >= 1)%Z; [|lia].
    rewrite (fval_to_u64 _ _ (fval_ceil _ _ D)) by (apply IZR_le; lia). rewrite Zfloor_IZR. lia.
Qed.
Lemma ceil_div_pos a b : (1 <= a)%N -> (a < two64)%N -> (b < two64)%N -> (1 <= f_to_u64 (f_ceil (f_div (f_of_u64 a) (f_of_u64 b))))%N.
Proof.
  intros H1 Ha Hb. eapply ceil_quot_pos; eauto using fval_of_u64.
  pose proof (rnd_u64_bounds a Ha). assert (1 <= rnd (IZR (Z.of_N a))) by (apply rnd_ge_1; lia).
  split. apply Rle_trans with (bpow radix2 0). apply bpow_le; lia. exact H0. apply Rle_trans with (bpow radix2 64). lra. apply bpow_le; lia.
Qed.

(** Relative error of one rounding. *)
Definition eps : R := bpow radix2 (-53).
Lemma rnd_rel x : bpow radix2 (-1000) <= Rabs x -> Rabs (rnd x - x) <= eps * Rabs x.
Proof.
  intro H. pose proof (relative_error_N_FLT radix2 (-1074) 53 ltac:(lia) (fun n => negb (Z.even n)) x) as E.
  assert (bpow radix2 (-1074 + 53 - 1) <= Rabs x). { apply Rle_trans with (2 := H). apply bpow_le. lia. }
  specialize (E H0). unfold rnd, eps. replace (bpow radix2 (-53)) with (/ 2 * bpow radix2 (-53 + 1)). exact E.
  change (-53 + 1)%Z with (-52)%Z. change (-53)%Z with (-1 + -52)%Z. rewrite bpow_plus. f_equal.
Qed.
Lemma Zceil_unique z x : IZR z - 1 < x <= IZR z -> Zceil x = z.
Proof. intros [H1 H2]. apply Zceil_imp. rewrite minus_IZR. lra. Qed.

(** Exact below 2^53. *)
Lemma ceil_div_exact a b : (a < 9007199254740992)%N -> (1 <= b)%N -> (b < 9007199254740992)%N ->
  f_to_u64 (f_ceil (f_div (f_of_u64 a) (f_of_u64 b))) = ((a + b - 1) / b)%N.
Proof.
  intros Ha Hb1 Hb. set (A := Z.of_N a). set (B := Z.of_N b).
  assert (FA : fval (f_of_u64 a) (IZR A)). { rewrite <- (rnd_format (IZR A)) by (apply format_int; lia). apply fval_of_u64. unfold two64; lia. }
  assert (FB : fval (f_of_u64 b) (IZR B)). { rewrite <- (rnd_format (IZR B)) by (apply format_int; lia). apply fval_of_u64. unfold two64; lia. }
  assert (HB : 1 <= IZR B) by (apply IZR_le; lia). assert (HA : 0 <= IZR A) by (apply IZR_le; lia).
  assert (HA2 : IZR A < bpow radix2 53). { rewrite IZR_bpow by lia. apply IZR_lt. subst A. lia. }
  assert (HB2 : IZR B < bpow radix2 53). { rewrite IZR_bpow by lia. apply IZR_lt. subst B. lia. }
  set (q := ((A + B - 1) / B)%Z).
  assert (Hq : (0 <= q /\ A <= q * B /\ (q - 1) * B < A)%Z).
  { subst q. pose proof (Z.div_mod (A + B - 1) B ltac:(lia)). pose proof (Z.mod_pos_bound (A + B - 1) B ltac:(lia)).
    split. apply Z.div_pos; lia. split; nia. }
  assert (X0 : 0 <= IZR A / IZR B). { apply Rmult_le_pos; auto. left. apply Rinv_0_lt_compat. lra. }
  assert (X1 : IZR A / IZR B <= IZR A). { apply Rmult_le_reg_r with (IZR B); [lra|]. unfold Rdiv. rewrite Rmult_assoc, Rinv_l by lra. nra. }
  assert (D : fval (f_div (f_of_u64 a) (f_of_u64 b)) (rnd (IZR A / IZR B))).
  { apply fval_div; auto. lra. rewrite Rabs_pos_eq by auto. apply Rle_trans with (bpow radix2 53); [lra|apply bpow_le; lia]. }
  assert (C : Zceil (rnd (IZR A / IZR B)) = q).
  { apply Zceil_unique. split.
    - destruct (Z.eq_dec A 0) as [A0|A0].
      { assert (q <= 0)%Z by nia. rewrite A0. unfold Rdiv. rewrite Rmult_0_l, rnd_0.
        apply Rlt_le_trans with (IZR (-1) + 1); [|lra]. assert (IZR q <= 0) by (apply IZR_le; lia). lra. }
      assert (XL : bpow radix2 (-1000) <= Rabs (IZR A / IZR B)).
      { rewrite Rabs_pos_eq by auto. apply Rle_trans with (1 / bpow radix2 53).
        - unfold Rdiv. rewrite Rmult_1_l, <- bpow_opp. apply bpow_le; lia.
        - unfold Rdiv. apply Rmult_le_compat; try lra. left. apply Rinv_0_lt_compat. apply bpow_gt_0.
          apply IZR_le. lia. apply Rinv_le; lra. }
      apply rnd_rel in XL. apply Rabs_le_inv in XL as [XL _]. rewrite Rabs_pos_eq in XL by auto.
      apply Rlt_le_trans with (IZR A / IZR B * (1 - eps)); [|lra].
      assert (E1 : eps * IZR A < 1).
      { unfold eps. apply Rlt_le_trans with (bpow radix2 (-53) * bpow radix2 53). apply Rmult_lt_compat_l; auto. apply bpow_gt_0.
        rewrite <- bpow_plus. cbn. lra. }
      assert (E2 : IZR q * IZR B - IZR B + 1 <= IZR A).
      { rewrite <- mult_IZR, <- minus_IZR. change 1 with (IZR 1). rewrite <- plus_IZR. apply IZR_le. lia. }
      apply Rmult_lt_reg_r with (IZR B); [lra|]. unfold Rdiv.
      replace (IZR A * / IZR B * (1 - eps) * IZR B) with (IZR A - eps * IZR A) by (field; lra). lra.
    - rewrite <- (rnd_format (IZR q)).
      + apply rnd_le. apply Rmult_le_reg_r with (IZR B); [lra|]. unfold Rdiv. rewrite Rmult_assoc, Rinv_l by lra. rewrite Rmult_1_r.
        rewrite <- mult_IZR. apply IZR_le. lia.
      + apply format_int. assert (q <= A)%Z; [|subst A; lia]. destruct (Z.eq_dec A 0); nia. }
  apply N2Z.inj. rewrite (fval_to_u64 _ _ (fval_ceil _ _ D)).
  - rewrite Zfloor_IZR, C. rewrite N2Z.inj_div, N2Z.inj_sub, N2Z.inj_add by lia. change (Z.of_N 1) with 1%Z. fold A B. fold q.
    assert (q <= A)%Z. { destruct (Z.eq_dec A 0); nia. } subst A. lia.
  - rewrite C. apply IZR_le. lia.
Qed.
