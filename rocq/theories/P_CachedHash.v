(** The number of hash functions of v2 filters with an index cache. *)
From Coq Require Import Lia Reals Lra.
From Verif Require Import M_V2 Spec_Bits Spec_Hash Spec_V2 Spec_V2File Spec_Libm Spec_Real Spec_Exp P_Base P_V2 P_V2Make P_V2Size.
From Flocq Require Import Core BinarySingleNaN.
From Verif Require Import P_Float P_FloatDiv P_Real P_RealLibm P_Geom Spec_Rate P_Rate P_RateFloat P_RateV2 P_RateCached.
Open Scope R_scope.

(** ** f64::round *)
Lemma Zfloor_half m p : Zfloor (IZR m * bpow radix2 (Zneg p) + / 2) = ((2 * m + 2 ^ Zpos p) / 2 ^ (Zpos p + 1))%Z.
Proof.
  assert (P : (0 < 2 ^ (Zpos p + 1))%Z) by (apply Z.pow_pos_nonneg; lia). assert (Q : (0 < 2 ^ Zpos p)%Z) by (apply Z.pow_pos_nonneg; lia).
  rewrite <- (Zfloor_div _ _ (not_eq_sym (Z.lt_neq _ _ P))). f_equal. rewrite Z.pow_add_r by lia. change (2 ^ 1)%Z with 2%Z. rewrite plus_IZR, !mult_IZR.
  change (bpow radix2 (Zneg p)) with (/ IZR (Z.pow_pos radix2 p)). change (Z.pow_pos radix2 p) with (2 ^ Zpos p)%Z. set (w := (2 ^ Zpos p)%Z) in *.
  apply IZR_lt in Q. field. lra.
Qed.
Lemma fval_round a x : fval a x -> 0 <= x -> fval (f_round a) (IZR (Zfloor (x + / 2))).
Proof.
  intros (p & <- & Fp & <-) X. destruct p as [s|s| |s m e Hb]; try discriminate.
  - exists (B754_zero s). split; [reflexivity|]. split; auto. cbn [B2R]. rewrite Rplus_0_l. replace (Zfloor (/ 2)) with 0%Z; [reflexivity|]. symmetry. apply Zfloor_imp. cbn. lra.
  - assert (Sg : s = false).
    { destruct s; [exfalso|reflexivity]. cbn [B2R] in X. unfold F2R in X. cbn [Fnum Fexp cond_Zopp] in X. assert (IZR (Zneg m) < 0) by (apply IZR_lt; lia). pose proof (bpow_gt_0 radix2 e). change (- Zpos m)%Z with (Zneg m) in X. nra. }
    subst s. assert (Int : forall z, Zfloor (IZR z + / 2) = z). { intro z. apply Zfloor_imp. rewrite plus_IZR. lra. }
    cbn [B2SF f_round B2R]. destruct e as [|e|e].
    + exists (B754_finite false m 0 Hb). split; auto. split; auto. cbn. unfold F2R. cbn. rewrite Rmult_1_r. now rewrite Int.
    + exists (B754_finite false m (Zpos e) Hb). split; auto. split; auto. cbn [B2R]. unfold F2R. cbn [Fnum Fexp]. rewrite IZR_bpow by lia. rewrite <- mult_IZR. now rewrite Int.
    + pose proof (bounded_mantissa _ _ Hb) as Bm. unfold F2R. cbn [Fnum Fexp cond_Zopp]. rewrite Zfloor_half.
      set (z := (_ / _)%Z). assert (Bz : (Z.abs z <= 2 ^ 53)%Z).
      { subst z. rewrite Z.pow_add_r by lia. change (2 ^ 1)%Z with 2%Z. assert (1 <= 2 ^ Zpos e)%Z by (apply (Z.pow_le_mono_r 2 0); lia). set (w := (2 ^ Zpos e)%Z) in *.
        assert (0 <= (2 * Zpos m + w) / (w * 2) <= Zpos m + 1)%Z; [|lia]. split; [apply Z.div_pos; lia|apply Z.div_le_upper_bound; nia]. }
      rewrite <- (rnd_format (IZR z)) by now apply format_int. apply fval_normalize. eapply Z.le_trans; [exact Bz|]. apply Z.pow_le_mono_r; lia.
Qed.

(** ** e *)
Lemma e_bounds : 2.7181 <= exp 1 <= 2.7185.
Proof.
  pose proof ln2_bounds as LB. assert (L10 : 6.931471 <= 10 * ln 2 <= 6.931472) by lra.
  assert (E7 : exp 1 ^ 7 = 1024 * exp (7 - 10 * ln 2)).
  { rewrite exp_pow. replace (INR 7 * 1) with (INR 10 * ln 2 + (7 - 10 * ln 2)) by (rewrite !INR_IZR_INZ; cbn [Z.of_nat Pos.of_succ_nat Pos.succ]; lra).
    rewrite exp_plus, <- exp_pow, exp_ln by lra. cbn [pow]. lra. }
  assert (U : exp (7 - 10 * ln 2) <= 1.0714).
  { apply Rle_trans with (exp (INR 8 * 0.00857)); [apply exp_le; rewrite INR_IZR_INZ; cbn [Z.of_nat Pos.of_succ_nat Pos.succ]; lra|]. rewrite <- exp_pow.
    apply Rle_trans with ((/ 0.99143) ^ 8); [|lra]. apply pow_incr. split; [apply Rlt_le, exp_pos|]. rewrite <- (Rinv_inv (exp 0.00857)), <- exp_Ropp. apply Rinv_le_contravar; [lra|].
    pose proof (exp_ge_1 (- (0.00857))). lra. }
  assert (D : 1.0705 <= exp (7 - 10 * ln 2)).
  { apply Rle_trans with (exp (INR 8 * 0.008565)); [|apply exp_le; rewrite INR_IZR_INZ; cbn [Z.of_nat Pos.of_succ_nat Pos.succ]; lra]. rewrite <- exp_pow.
    apply Rle_trans with (1.008565 ^ 8); [lra|]. apply pow_incr. pose proof (exp_ge_1 0.008565). lra. }
  split; apply Rnot_lt_le; intro H.
  - assert (exp 1 ^ 7 <= 2.7181 ^ 7) by (apply pow_incr; pose proof (exp_pos 1); lra). lra.
  - assert (2.7185 ^ 7 <= exp 1 ^ 7) by (apply pow_incr; lra). lra.
Qed.
Lemma exp_m1 : 0.3678 <= exp (Ropp 1) <= 0.36792.
Proof. rewrite exp_Ropp. pose proof e_bounds as [A B]. split; [apply Rle_trans with (/ 2.7185); [lra|]|apply Rle_trans with (/ 2.7181); [|lra]]; apply Rinv_le_contravar; lra. Qed.
Lemma exp_shift x y d : Rabs (x - y) <= d -> 0 <= d <= / 4 -> exp y * (1 - d) <= exp x <= exp y * (1 + 2 * d).
Proof.
  intros H D. apply Rabs_le_inv in H. pose proof (exp_pos y). replace x with (y + (x - y)) by ring. rewrite exp_plus. split; apply Rmult_le_compat_l; try lra.
  - pose proof (exp_ge_1 (x - y)). lra.
  - apply Rle_trans with (exp d); [apply exp_le; lra|]. rewrite <- (Rinv_inv (exp d)), <- exp_Ropp. pose proof (exp_ge_1 (- d)).
    apply Rle_trans with (/ (1 - d)); [apply Rinv_le_contravar; lra|]. apply Rmult_le_reg_r with (1 - d); [lra|]. rewrite Rinv_l by lra. nra.
Qed.

(** ** The estimate used to reduce the number of hash functions *)
Lemma cache_k L cap m : libm_ln2 L -> (1 <= cap)%N -> (cap <= m)%N -> (m < 2 * cap)%N -> (m < two64)%N -> let q := IZR (Z.of_N cap) / IZR (Z.of_N m) in
  bu_k L m cap = 1%N /\ 0.69314 <= q <= 1 \/ bu_k L m cap = 2%N /\ 0.5 <= q <= 0.69315.
Proof.
  intros H2 C1 Cm M2 M64 q. destruct (k_real L m cap H2 ltac:(lia) M64 C1 ltac:(lia)) as (Q & BQ & EK). pose proof ln2_bounds as LB. pose proof eps_small as [e0 _].
  assert (e1 : 11 * eps <= / 100000000). { assert (Eq : eps = / 9007199254740992) by reflexivity. rewrite Eq. lra. }
  assert (c1 : 1 <= IZR (Z.of_N cap)) by (apply IZR_le; lia). assert (m1 : IZR (Z.of_N cap) <= IZR (Z.of_N m)) by (apply IZR_le; lia).
  assert (m2 : IZR (Z.of_N m) < 2 * IZR (Z.of_N cap)) by (rewrite <- mult_IZR; apply IZR_lt; lia). set (c := IZR (Z.of_N cap)) in *. set (b := IZR (Z.of_N m)) in *.
  assert (Iq : q * b = c) by (unfold q; field; lra). assert (q0 : 0.5 <= q <= 1) by (split; apply Rmult_le_reg_r with b; lra).
  assert (QE : ln 2 * b / c = ln 2 / q) by (unfold q; field; lra). rewrite QE in BQ. unfold btw in BQ.
  assert (I0 : ln 2 / q * q = ln 2) by (field; lra). assert (I1 : 0 < ln 2 / q) by (apply Rmult_lt_0_compat; [lra|apply Rinv_0_lt_compat; lra]).
  assert (I2 : ln 2 / q <= 1.3863) by (apply Rmult_le_reg_r with q; lra). set (t := ln 2 / q) in *.
  assert (I3 : 0.6931 <= t) by (apply Rmult_le_reg_r with q; lra).
  assert (te : 0 <= t * (11 * eps) <= / 50000000) by nra.
  destruct (Rle_lt_dec Q 1) as [H|H].
  - left. assert (Zc : Zceil Q = 1%Z) by (apply Zceil_imp; cbn; lra). rewrite Zc in EK. split; [lia|]. split; [|lra]. nra.
  - right. assert (Zc : Zceil Q = 2%Z) by (apply Zceil_imp; cbn; lra). rewrite Zc in EK. split; [lia|]. split; [lra|]. nra.
Qed.
Lemma rnd_close x : bpow radix2 (-1000) <= Rabs x -> Rabs x <= 2 -> Rabs (rnd x - x) <= / 1000000000.
Proof.
  intros A B. apply Rle_trans with (1 := rnd_rel x A). assert (Eq : eps = / 9007199254740992) by reflexivity. rewrite Eq. pose proof (Rabs_pos x). lra.
Qed.
Lemma near_close x r : near x r -> Rabs r <= 1 -> fval x (sf_R x) /\ Rabs (sf_R x - r) <= / 1000000000.
Proof.
  intros [F H] R. split; [now apply sf_fin_fval|]. apply Rle_trans with (1 := H). unfold powerRZ. change (Pos.to_nat 50) with 50%nat. pose proof (Rabs_pos r). lra.
Qed.
Lemma two_bpow : 2 <= bpow radix2 1023.
Proof. change 2 with (bpow radix2 1). apply bpow_le. lia. Qed.
Lemma small_bpow x : / 8 <= x -> bpow radix2 (-1000) <= x.
Proof. intro H. apply Rle_trans with (2 := H). change (/ 8) with (bpow radix2 (-3)). apply bpow_le. lia. Qed.
Lemma est_real L cap m : libm_ln2 L -> libm_exp_accurate L -> (1 <= cap)%N -> (cap < 9007199254740992)%N -> (cap <= m)%N -> (m < 2 * cap)%N -> (m <= 9007199254740992)%N ->
  exists E, fval (bu_estimate_p L cap m) E /\ 0.3995 <= E <= 0.6325.
Proof.
  intros H2 [HE HP] C1 C2 Cm M2 M3. pose proof (cache_k L cap m H2 C1 Cm M2 ltac:(unfold two64; lia)) as CK. cbv zeta in CK.
  assert (c1 : 1 <= IZR (Z.of_N cap)) by (apply IZR_le; lia). assert (m1 : IZR (Z.of_N cap) <= IZR (Z.of_N m)) by (apply IZR_le; lia).
  pose proof (fval_of_u64 cap ltac:(unfold two64; lia)) as FC. rewrite (rnd_format (IZR (Z.of_N cap))) in FC by (apply format_int; lia).
  pose proof (fval_of_u64 m ltac:(unfold two64; lia)) as FM. rewrite (rnd_format (IZR (Z.of_N m))) in FM by (apply format_int; lia).
  unfold bu_estimate_p. set (k := bu_k L m cap) in *. set (q := IZR (Z.of_N cap) / IZR (Z.of_N m)) in *.
  assert (K12 : k = 1%N \/ k = 2%N) by tauto. set (kr := IZR (Z.of_N k)).
  assert (FK : fval (f_of_u64 k) kr). { unfold kr. rewrite <- (rnd_format (IZR (Z.of_N k))) by (apply format_int; lia). apply fval_of_u64. unfold two64. lia. }
  assert (FN : fval (f_mul (f_opp (f_of_u64 k)) (f_of_u64 cap)) (- kr * IZR (Z.of_N cap))).
  { rewrite <- (rnd_format (- kr * IZR (Z.of_N cap))).
    - apply fval_mul; [now apply fval_opp|exact FC|]. apply Rle_trans with (bpow radix2 54); [|apply bpow_le; lia].
      assert (U : IZR (Z.of_N cap) <= 9007199254740992) by (apply IZR_le; lia). change (bpow radix2 54) with 18014398509481984. unfold kr. destruct K12 as [-> | ->]; cbn [Z.of_N]; apply Rabs_le; split; lra.
    - unfold kr. destruct K12 as [-> | ->]; cbn [Z.of_N].
      + replace (- (1) * IZR (Z.of_N cap)) with (IZR (- Z.of_N cap) * bpow radix2 0) by (rewrite opp_IZR; cbn [bpow]; ring). apply format_spec; lia.
      + replace (- (2) * IZR (Z.of_N cap)) with (IZR (- Z.of_N cap) * bpow radix2 1) by (rewrite opp_IZR; change (bpow radix2 1) with 2; ring). apply format_spec; lia. }
  assert (Eq : - kr * IZR (Z.of_N cap) / IZR (Z.of_N m) = - (kr * q)) by (unfold q; field; lra).
  assert (KQ : 0.5 <= kr * q <= 1.3863) by (unfold kr; destruct CK as [[-> ?]|[-> ?]]; cbn [Z.of_N]; lra).
  assert (AB : Rabs (- (kr * q)) = kr * q) by (rewrite Rabs_Ropp; apply Rabs_pos_eq; lra). pose proof two_bpow as TB.
  assert (FD : fval (f_div (f_mul (f_opp (f_of_u64 k)) (f_of_u64 cap)) (f_of_u64 m)) (rnd (- (kr * q)))).
  { rewrite <- Eq. apply fval_div; [exact FN|exact FM|lra|rewrite Eq, AB; lra]. }
  pose proof (rnd_close (- (kr * q)) ltac:(rewrite AB; apply small_bpow; lra) ltac:(rewrite AB; lra)) as RC. set (x := rnd (- (kr * q))) in *.
  set (fx := f_div _ _) in *. pose proof (fval_R _ _ FD) as Rx. pose proof (Rabs_le_inv _ _ RC) as RC'.
  pose proof (HE fx (fval_fin _ _ FD) ltac:(lra)) as NE. rewrite Rx in NE. pose proof (exp_shift x (- (kr * q)) _ RC ltac:(lra)) as ES.
  assert (EU : exp (- (kr * q)) <= exp 0) by (apply exp_le; lra). rewrite exp_0 in EU. pose proof (exp_pos (- (kr * q))) as EP. pose proof (exp_pos x) as EPx.
  assert (Ex1 : exp x <= 1) by (rewrite <- exp_0; apply exp_le; lra).
  destruct (near_close _ _ NE ltac:(rewrite Rabs_pos_eq; lra)) as [FE CE]. apply Rabs_le_inv in CE. set (e := sf_R (lm_exp L fx)) in *.
  assert (Xb : 0.2499 <= exp (- (kr * q)) <= 0.5001 /\ (k = 1%N -> 0.3678 <= exp (- (kr * q))) /\ (k = 2%N -> exp (- (kr * q)) <= 0.36792)).
  { pose proof exp_m1 as M1. assert (Half : exp (- ln 2) = / 2) by (rewrite exp_Ropp, exp_ln by lra; reflexivity). pose proof ln2_bounds as LB.
    unfold kr. destruct CK as [[-> Q]|[-> Q]]; cbn [Z.of_N].
    - assert (A : exp (Ropp 1) <= exp (- (1 * q))) by (apply exp_le; lra). assert (B : exp (- (1 * q)) <= exp (- ln 2 + 0.00001)) by (apply exp_le; lra).
      pose proof (exp_shift (- ln 2 + 0.00001) (- ln 2) 0.00001 ltac:(apply Rabs_le; lra) ltac:(lra)) as S1. rewrite Half in S1. split; [lra|]. split; [lra|discriminate].
    - assert (A : exp (- (2 * q)) <= exp (Ropp 1)) by (apply exp_le; lra). assert (B : exp (- ln 2 + - ln 2 - 0.00002) <= exp (- (2 * q))) by (apply exp_le; lra).
      pose proof (exp_shift (- ln 2 + - ln 2 - 0.00002) (- ln 2 + - ln 2) 0.00002 ltac:(apply Rabs_le; lra) ltac:(lra)) as S1. rewrite exp_plus, Half in S1. split; [lra|]. split; [discriminate|lra]. }
  set (g := exp (- (kr * q))) in *. destruct Xb as [Gb [G1 G2]].
  assert (ge : g - / 100000000 <= e <= g + / 100000000) by nra.
  assert (F1 : fval f_one 1). { unfold f_one. rewrite <- (rnd_format 1) by (apply (format_int 1); lia). apply (fval_of_u64 1). reflexivity. }
  assert (FS : fval (f_sub f_one (lm_exp L fx)) (rnd (1 - e))) by (apply fval_sub; [exact F1|exact FE|rewrite Rabs_pos_eq; lra]).
  pose proof (rnd_close (1 - e) ltac:(rewrite Rabs_pos_eq by lra; apply small_bpow; lra) ltac:(rewrite Rabs_pos_eq; lra)) as RS. apply Rabs_le_inv in RS.
  set (w := rnd (1 - e)) in *. set (fw := f_sub _ _) in *. pose proof (fval_R _ _ FS) as Rw.
  pose proof (HP fw k (fval_fin _ _ FS) ltac:(rewrite Rw; lra) K12) as NP. rewrite Rw in NP.
  assert (W : 0 <= w ^ N.to_nat k <= 1) by (destruct K12 as [-> | ->]; [change (N.to_nat 1) with 1%nat|change (N.to_nat 2) with 2%nat]; cbn [pow]; nra).
  destruct (near_close _ _ NP ltac:(rewrite Rabs_pos_eq; lra)) as [FP CP]. apply Rabs_le_inv in CP. eexists. split; [exact FP|]. match type of FP with fval _ ?v => set (p := v) in * end.
  destruct K12 as [K|K]; rewrite K in CP; [change (N.to_nat 1) with 1%nat in CP; specialize (G1 K)|change (N.to_nat 2) with 2%nat in CP; specialize (G2 K)]; cbn [pow] in CP; rewrite Rmult_1_r in CP.
  - lra.
  - assert (0.63207 * 0.63207 <= w * w) by (apply Rmult_le_compat; lra). assert (w * w <= 0.7502 * 0.7502) by (apply Rmult_le_compat; lra). lra.
Qed.

(** ** The number of hash functions *)
Lemma cached_hash_real L cap m bpe z : libm_ln2 L -> libm_exp_accurate L -> (1 <= cap)%N -> (cap < 9007199254740992)%N -> (cap <= m)%N -> (m < 2 * cap)%N -> (m <= 9007199254740992)%N ->
  fval bpe (IZR z) -> (1 <= z <= 1000000)%Z -> let k := v2_cached_n_hash L cap m bpe in (1 <= k)%N /\ 0.2768 * IZR z <= IZR (Z.of_N k) <= 0.4386 * IZR z + 1.
Proof.
  intros H2 HE C1 C2 Cm M2 M3 FB Z1 k. destruct (est_real L cap m H2 HE C1 C2 Cm M2 M3) as (E & FE & EB). pose proof (fval_ln2 L H2) as FL. pose proof v_ln2_btw as BL.
  pose proof ln2_bounds as LB. assert (ee : eps = / 9007199254740992) by reflexivity. pose proof two_bpow as TB.
  assert (z1 : 1 <= IZR z <= 1000000) by (split; apply IZR_le; lia).
  assert (V : 0.69314 <= v_ln2 <= 0.69315) by (unfold btw in BL; rewrite ee in BL; lra).
  assert (T : 0.2769 <= v_ln2 * E <= 0.43842). { split; [apply Rle_trans with (0.69314 * 0.3995); [lra|]|apply Rle_trans with (0.69315 * 0.6325); [|lra]]; apply Rmult_le_compat; lra. }
  assert (FT : fval (f_mul (ln2 L) (bu_estimate_p L cap m)) (rnd (v_ln2 * E))) by (apply fval_mul; auto; rewrite Rabs_pos_eq; lra).
  pose proof (btw_rnd (v_ln2 * E) ltac:(apply small_bpow; lra)) as B1. unfold btw in B1. rewrite ee in B1. set (t := rnd (v_ln2 * E)) in *.
  assert (T' : 0.27689 <= t <= 0.43843) by lra.
  assert (TZ : 0.27689 * IZR z <= t * IZR z <= 0.43843 * IZR z) by (split; apply Rmult_le_compat_r; lra).
  assert (FQ : fval (f_mul (f_mul (ln2 L) (bu_estimate_p L cap m)) bpe) (rnd (t * IZR z))).
  { apply fval_mul; auto. apply Rle_trans with (bpow radix2 20); [change (bpow radix2 20) with 1048576; rewrite Rabs_pos_eq; lra|apply bpow_le; lia]. }
  pose proof (btw_rnd (t * IZR z) ltac:(apply small_bpow; lra)) as B2. unfold btw in B2. rewrite ee in B2. set (u := rnd (t * IZR z)) in *.
  assert (U : 0.2768 * IZR z <= u <= 0.4386 * IZR z) by lra.
  assert (Cp : (1 <= Zceil u)%Z) by (apply Z.lt_pred_le, lt_IZR; cbn; pose proof (Zceil_ub u); lra).
  assert (Cu : (Zceil u <= 2 ^ 64 - 1)%Z). { apply le_IZR. pose proof (Zceil_up u). change (IZR (2 ^ 64 - 1)) with 18446744073709551615. lra. }
  assert (EK : Z.of_N k = Zceil u). { unfold k, v2_cached_n_hash. rewrite (fval_to_u64 _ _ (fval_ceil _ _ FQ)) by (apply IZR_le; lia). rewrite Zfloor_IZR. lia. }
  split; [lia|]. rewrite EK. pose proof (Zceil_ub u). pose proof (Zceil_up u). lra.
Qed.
