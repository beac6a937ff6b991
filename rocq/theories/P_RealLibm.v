(** The math library that rounds the real functions correctly meets every hypothesis the theorems make about it. *)
From Coq Require Import Lia Reals Lra.
From Verif Require Import M_V2 Spec_Libm Spec_Real P_Base P_V2Size.
From Flocq Require Import Core BinarySingleNaN.
From Verif Require Import P_Float P_FloatDiv P_Real.
Open Scope R_scope.

(** ** ln 2 from its series: ln((1+t)/(1-t)) = 2 sum t^(2k+1)/(2k+1) at t = 1/3 *)
Fixpoint atanh_sum (n : nat) (t : R) : R :=
  match n with O => 0 | S k => atanh_sum k t + t ^ (2 * k + 1) / INR (2 * k + 1) end.
Fixpoint geo (n : nat) (t : R) : R := match n with O => 0 | S k => geo k t + t ^ (2 * k) end.
Lemma atanh_sum_deriv n t : derivable_pt_lim (atanh_sum n) t (geo n t).
Proof.
  induction n as [|n IH]; cbn [atanh_sum geo]. exact (derivable_pt_lim_const 0 t).
  apply (derivable_pt_lim_plus (atanh_sum n) (fun x => x ^ (2 * n + 1) / INR (2 * n + 1)) t); [exact IH|].
  replace (t ^ (2 * n)) with (/ INR (2 * n + 1) * (INR (2 * n + 1) * t ^ (2 * n))).
  2:{ field. apply not_0_INR. lia. }
  assert (E : forall x, / INR (2 * n + 1) * x ^ (2 * n + 1) = x ^ (2 * n + 1) / INR (2 * n + 1)) by (intro; unfold Rdiv; ring).
  assert (D : derivable_pt_lim (mult_real_fct (/ INR (2 * n + 1)%nat)%R (fun x => (x ^ (2 * n + 1)%nat)%R)) t (/ INR (2 * n + 1) * (INR (2 * n + 1) * t ^ (2 * n)))).
  { apply derivable_pt_lim_scal. replace (t ^ (2 * n)) with (t ^ Nat.pred (2 * n + 1)) by (f_equal; lia). apply derivable_pt_lim_pow. }
  intros e He. destruct (D e He) as (d & Hd). exists d. intros h Hh Hd'. specialize (Hd h Hh Hd'). unfold mult_real_fct in Hd. now rewrite !E in Hd.
Qed.
Lemma geo_eq n t : t * t <> 1 -> geo n t = (1 - (t * t) ^ n) / (1 - t * t).
Proof.
  intro H. assert (H' : 1 - t * t <> 0) by lra. induction n as [|n IH]; cbn [geo]. cbn. field. exact H'.
  rewrite IH, pow_mult. cbn [pow]. rewrite Rmult_1_r. field. exact H'.
Qed.
Definition lnq (n : nat) (t : R) : R := ln (1 + t) - ln (1 - t) - 2 * atanh_sum n t.
Lemma lnq_deriv n t : 0 <= t <= / 3 -> derivable_pt_lim (lnq n) t (2 * (t * t) ^ n / (1 - t * t)).
Proof.
  intro H. assert (T : t * t <= / 9) by nra.
  replace (2 * (t * t) ^ n / (1 - t * t)) with (/ (1 + t) * 1 - / (1 - t) * (0 - 1) - (2 * geo n t)).
  2:{ rewrite geo_eq by nra. field. repeat split; nra. }
  apply (derivable_pt_lim_minus (fun x => ln (1 + x) - ln (1 - x)) (fun x => 2 * atanh_sum n x)).
  - apply (derivable_pt_lim_minus (fun x => ln (1 + x)) (fun x => ln (1 - x))).
    + apply (derivable_pt_lim_comp (fun x => 1 + x) ln).
      * assert (D : derivable_pt_lim (fun x => 1 + x)%R t (0 + 1)).
        { apply (derivable_pt_lim_plus (fun _ => 1) (fun x => x)). apply derivable_pt_lim_const. apply derivable_pt_lim_id. }
        now rewrite Rplus_0_l in D.
      * apply derivable_pt_lim_ln. lra.
    + apply (derivable_pt_lim_comp (fun x => 1 - x) ln).
      * apply (derivable_pt_lim_minus (fun _ => 1) (fun x => x)). apply derivable_pt_lim_const. apply derivable_pt_lim_id.
      * apply derivable_pt_lim_ln. lra.
  - apply (derivable_pt_lim_scal (atanh_sum n) 2). apply atanh_sum_deriv.
Qed.
Lemma lnq_bounds n : 0 <= lnq n (/ 3) <= / 9 ^ n.
Proof.
  destruct (MVT_cor2 (lnq n) (fun t => 2 * (t * t) ^ n / (1 - t * t)) 0 (/ 3)) as (c & E & C). lra. intros c C. apply lnq_deriv. exact C.
  assert (Z : forall k, atanh_sum k 0 = 0).
  { induction k as [|k IH]; cbn [atanh_sum]; [reflexivity|]. rewrite IH, pow_i by lia. unfold Rdiv. ring. }
  assert (L0 : lnq n 0 = 0) by (unfold lnq; rewrite Z, Rplus_0_r, Rminus_0_r, ln_1; ring). rewrite L0, !Rminus_0_r in E. rewrite E.
  assert (T : 0 <= c * c <= / 9) by nra. assert (P1 : 0 <= (c * c) ^ n) by (apply pow_le; lra).
  assert (P2 : (c * c) ^ n <= / 9 ^ n). { rewrite <- pow_inv. apply pow_incr. exact T. }
  assert (D : 8 / 9 <= 1 - c * c) by lra. assert (DI : 0 < / (1 - c * c) <= 9 / 8).
  { split. apply Rinv_0_lt_compat. lra. replace (9 / 8) with (/ (8 / 9)) by field. apply Rinv_le; lra. }
  unfold Rdiv. assert (Q : 0 <= (c * c) ^ n * / (1 - c * c) <= / 9 ^ n * (9 / 8)). { split. apply Rmult_le_pos; lra. apply Rmult_le_compat; lra. }
  assert (0 < / 9 ^ n) by (apply Rinv_0_lt_compat, pow_lt; lra). lra.
Qed.
Lemma ln2_series n : 0 <= ln 2 - 2 * atanh_sum n (/ 3) <= / 9 ^ n.
Proof.
  replace (ln 2) with (ln (1 + / 3) - ln (1 - / 3)). apply lnq_bounds.
  unfold Rminus. rewrite <- ln_Rinv by lra. rewrite <- ln_mult; [f_equal; field|lra|apply Rinv_0_lt_compat; lra].
Qed.
(** ln 2 to 58 bits. *)
Lemma ln2_bounds : 6243314768165359 - / 2 < ln 2 * 9007199254740992 < 6243314768165359 + / 2.
Proof.
  pose proof (ln2_series 20) as [A B]. cbn [atanh_sum pow Nat.mul Nat.add] in A, B.
  repeat match goal with H : context [INR ?n] |- _ => let z := eval vm_compute in (Z.of_nat n) in change (INR n) with (INR (Z.to_nat z)) in H; rewrite (INR_IZR_INZ (Z.to_nat z)) in H; change (Z.of_nat (Z.to_nat z)) with z in H end.
  split; lra.
Qed.

Lemma f_leb_of_R a b x y : fval a x -> fval b y -> x <= y -> f_leb a b = true.
Proof.
  intros (u & <- & Fu & <-) (v & <- & Fv & <-) H. change (Bleb u v = true). rewrite Bleb_correct by auto. now apply Rle_bool_true.
Qed.
Lemma fval_inj a b x : fval a x -> fval b x -> x <> 0 -> a = b.
Proof.
  intros (u & <- & Fu & <-) (v & <- & Fv & E) H. f_equal. symmetry. apply B2R_inj.
  - destruct v; try discriminate; [cbn in E; congruence|reflexivity].
  - destruct u; try discriminate; [cbn in H; congruence|reflexivity].
  - exact E.
Qed.
(** The double nearest to ln 2. *)
Definition c_ln2 : spec_float := S754_finite false 6243314768165359 (-53).
Definition v_ln2 : R := 6243314768165359 * bpow radix2 (-53).
Lemma fval_c_ln2 : fval c_ln2 v_ln2.
Proof.
  assert (V : valid_binary 53 1024 c_ln2 = true) by (vm_compute; reflexivity). destruct (valid_fval _ V) as (x & F); [discriminate|intros; discriminate|].
  pose proof (fval_R _ _ F) as E. subst x. replace v_ln2 with (sf_R c_ln2); [exact F|]. unfold v_ln2, c_ln2, sf_R. rewrite bpow_powerRZ. reflexivity.
Qed.
Lemma bpow53 : bpow radix2 53 = 9007199254740992. Proof. reflexivity. Qed.
Lemma rnd_ln2 : rnd (ln 2) = v_ln2.
Proof.
  pose proof ln2_bounds as [A B].
  assert (M : cexp radix2 fx (ln 2) = (-53)%Z).
  { unfold cexp. rewrite (mag_unique radix2 (ln 2) 0). reflexivity. change (bpow radix2 (0 - 1)) with (/ 2). change (bpow radix2 0) with 1.
    pose proof ln2_lo. rewrite Rabs_pos_eq by lra. split; lra. }
  unfold rnd, round, scaled_mantissa. rewrite M. unfold F2R. cbn [Fnum Fexp]. change (- -53)%Z with 53%Z. rewrite bpow53.
  rewrite (Znearest_imp _ _ 6243314768165359); [reflexivity|]. apply Rabs_lt. split; lra.
Qed.
Lemma real_libm_ln2 : libm_ln2 real_libm.
Proof.
  unfold libm_ln2. cbn [lm_ln real_libm].
  assert (F2 : fval f_two 2). { rewrite <- (rnd_format 2) by (apply (format_int 2); lia). apply (fval_of_u64 2). reflexivity. }
  rewrite (fval_R _ _ F2). apply fval_inj with v_ln2; [|exact fval_c_ln2|].
  - rewrite <- rnd_ln2. apply sf_round_fval. pose proof ln2_lo. pose proof ln2_hi. rewrite Rabs_pos_eq by lra.
    apply Rle_trans with (bpow radix2 0); [cbn; lra|apply bpow_le; lia].
  - unfold v_ln2. pose proof (bpow_gt_0 radix2 (-53)). lra.
Qed.
Lemma real_libm_ln2_sq : libm_ln2_sq real_libm.
Proof.
  split; [exact real_libm_ln2|]. rewrite real_libm_ln2. fold c_ln2. cbn [lm_powf real_libm].
  assert (F2 : fval f_two 2). { rewrite <- (rnd_format 2) by (apply (format_int 2); lia). apply (fval_of_u64 2). reflexivity. }
  rewrite (fval_R _ _ F2), (fval_R _ _ fval_c_ln2).
  assert (V : / 2 < v_ln2 < 1). { unfold v_ln2. change (bpow radix2 (-53)) with (/ 9007199254740992). lra. }
  assert (EP : Rpower v_ln2 2 = v_ln2 * v_ln2). { change 2 with (INR 2) at 1. rewrite Rpower_pow by lra. cbn [pow]. ring. }
  rewrite EP. assert (U : v_ln2 * v_ln2 <= bpow radix2 1023). { apply Rle_trans with (bpow radix2 0); [cbn; nra|apply bpow_le; lia]. }
  assert (A : Rabs (v_ln2 * v_ln2) <= bpow radix2 1023) by (rewrite Rabs_pos_eq by nra; exact U).
  pose proof (fval_mul _ _ _ _ fval_c_ln2 fval_c_ln2 A) as F.
  rewrite (fval_inj _ _ _ (sf_round_fval _ A) F). vm_compute. reflexivity.
  assert (L : / 4 <= rnd (v_ln2 * v_ln2)); [|lra]. rewrite <- (rnd_format (/ 4)). apply rnd_le. nra.
  replace (/ 4) with (1 * bpow radix2 (-2)). apply (format_spec 1); lia. change (bpow radix2 (-2)) with (/ 4). ring.
Qed.
Lemma real_libm_ln1 : libm_ln1 real_libm.
Proof.
  unfold libm_ln1. cbn [lm_ln real_libm].
  assert (F1 : fval f_one 1). { rewrite <- (rnd_format 1) by (apply (format_int 1); lia). apply (fval_of_u64 1). reflexivity. }
  rewrite (fval_R _ _ F1), ln_1. unfold sf_round. rewrite rnd_0, scaled_mantissa_0, (Ztrunc_IZR 0). reflexivity.
Qed.
Lemma real_libm_ln_range : libm_ln_range real_libm.
Proof.
  intros x V A B. cbn zeta. destruct (real_libm_accurate) as [N _]. specialize (N x V A B). destruct N as [Fy _].
  assert (Fx : sf_fin x).
  { split; [exact V|]. destruct x as [|s| |]; auto. destruct s; [discriminate A|discriminate B]. discriminate A. }
  apply sf_fin_fval in Fx. destruct (fpp_real bits_min_positive eq_refl) as [FM [M1 M2]]. pose proof (f_leb_R _ _ _ _ FM Fx A) as XA.
  assert (O : fval f_one 1). { rewrite <- (rnd_format 1) by (apply (format_int 1); lia). apply (fval_of_u64 1). reflexivity. }
  pose proof (f_leb_R _ _ _ _ Fx O B) as XB. pose proof (bpow_gt_0 radix2 (-1022)) as P. destruct XB as [XB|XB].
  - right. right. split; [exact (proj1 Fy)|].
    pose proof (format_below_1 _ (fval_format _ _ Fx) ltac:(lra)) as F1. pose proof (ln_le_1 (sf_R x) ltac:(lra)) as F2.
    pose proof ln2_bounds as [_ L2]. assert (U : - ln (sf_R x) <= 720).
    { assert (ln (bpow radix2 (-1022)) <= ln (sf_R x)) by (apply P_Real.ln_le; lra). rewrite ln_bpow in H. lra. }
    assert (F : fval (lm_ln real_libm x) (rnd (ln (sf_R x)))).
    { apply sf_round_fval. rewrite Rabs_left by (pose proof (bpow_gt_0 radix2 (-53)); lra).
      apply Rle_trans with (bpow radix2 10); [change (bpow radix2 10) with 1024; lra|apply bpow_le; lia]. }
    split.
    + apply (f_leb_of_R _ _ _ _ fval_800 F). rewrite <- (rnd_format (-800)) by (apply (format_int (-800)); lia). apply rnd_le. lra.
    + apply (f_leb_of_R _ _ _ _ F fval_m60). rewrite <- (rnd_format (- bpow radix2 (-60))).
      * apply rnd_le. assert (bpow radix2 (-60) <= bpow radix2 (-53)) by (apply bpow_le; lia). lra.
      * replace (- bpow radix2 (-60)) with (-1 * bpow radix2 (-60)) by ring. apply (format_spec (-1)); lia.
  - left. cbn [lm_ln real_libm]. rewrite XB, ln_1. unfold sf_round. rewrite rnd_0, scaled_mantissa_0, (Ztrunc_IZR 0). reflexivity.
Qed.
