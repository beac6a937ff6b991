(** Counting with doubles: adding 1.0 is exact up to 2^53. *)
From Coq Require Import Lia Reals Lra.
From Verif Require Import M_Utils M_Bench Spec_Bits Spec_Real P_Base.
From Flocq Require Import Core BinarySingleNaN.
From Verif Require Import P_Float P_FloatDiv P_V2 P_Real.
Open Scope R_scope.

Lemma add_equiv (x y : bf64) : f_add (B2SF x) (B2SF y) = B2SF (Bplus mode_NE x y).
Proof.
  destruct x, y; try reflexivity; try (cbn; now destruct (Bool.eqb _ _)).
  cbn. apply binary_normalize_equiv.
Qed.
Lemma fval_add a b x y : fval a x -> fval b y -> Rabs (x + y) <= bpow radix2 1023 -> fval (f_add a b) (rnd (x + y)).
Proof.
  intros (p & <- & Fp & <-) (q & <- & Fq & <-) Hb. eexists. split; [symmetry; apply add_equiv|].
  pose proof (Bplus_correct 53 1024 _ _ mode_NE p q Fp Fq) as C.
  change (round radix2 fx (round_mode mode_NE) (B2R p + B2R q)) with (rnd (B2R p + B2R q)) in C.
  rewrite rnd_small in C by auto. destruct C as (A & B & _). auto.
Qed.
(** A double is determined by its value, unless it is a zero. *)
Lemma fval_inj a b x : fval a x -> fval b x -> x <> 0 -> a = b.
Proof.
  intros (p & <- & Fp & Ep) (q & <- & Fq & Eq) N. f_equal. apply B2R_inj.
  - destruct p; try discriminate; [cbn in Ep; congruence|reflexivity].
  - destruct q; try discriminate; [cbn in Eq; congruence|reflexivity].
  - congruence.
Qed.
Lemma fval_int n : (n <= 9007199254740992)%N -> fval (f_of_u64 n) (IZR (Z.of_N n)).
Proof.
  intro H. pose proof (fval_of_u64 n) as F. rewrite rnd_format in F; [apply F; unfold two64; lia|]. apply format_int. lia.
Qed.
Lemma small_abs z : (Z.abs z <= 2 ^ 1000)%Z -> Rabs (IZR z) <= bpow radix2 1023.
Proof. intro H. rewrite <- abs_IZR, IZR_bpow by lia. apply IZR_le. apply Z.le_trans with (2 ^ 1000)%Z; [exact H|]. apply Z.pow_le_mono_r; lia. Qed.
Lemma add_int a b : (a + b <= 9007199254740992)%N -> (0 < b)%N -> f_add (f_of_u64 a) (f_of_u64 b) = f_of_u64 (a + b).
Proof.
  intros H Hb. apply (fval_inj _ _ (IZR (Z.of_N (a + b)))).
  - rewrite <- (rnd_format (IZR (Z.of_N (a + b)))) by (apply format_int; lia). rewrite N2Z.inj_add, plus_IZR. apply fval_add; [apply fval_int; lia|apply fval_int; lia|].
    rewrite <- plus_IZR. apply small_abs. apply Z.le_trans with (2 ^ 53)%Z; [lia|]. apply Z.pow_le_mono_r; lia.
  - apply fval_int. lia.
  - apply IZR_neq. lia.
Qed.
Lemma add_zero a : (a <= 9007199254740992)%N -> f_add (f_of_u64 a) (f_of_u64 0) = f_of_u64 a.
Proof.
  intro H. destruct (N.eq_dec a 0) as [->|Na]; [reflexivity|]. apply (fval_inj _ _ (IZR (Z.of_N a))).
  - rewrite <- (rnd_format (IZR (Z.of_N a))) by (apply format_int; lia). replace (IZR (Z.of_N a)) with (IZR (Z.of_N a) + IZR (Z.of_N 0)) by (cbn; lra). apply fval_add; [apply fval_int; lia|apply fval_int; lia|].
    rewrite <- plus_IZR. apply small_abs. apply Z.le_trans with (2 ^ 53)%Z; [lia|]. apply Z.pow_le_mono_r; lia.
  - apply fval_int. lia.
  - apply IZR_neq. lia.
Qed.
Lemma add_count a b : (a + b <= 9007199254740992)%N -> f_add (f_of_u64 a) (f_of_u64 b) = f_of_u64 (a + b).
Proof. intro H. destruct (N.eq_dec b 0) as [->|Nb]; [rewrite N.add_0_r; apply add_zero; lia|apply add_int; lia]. Qed.
(** The quotient of two counts is the double nearest to their ratio. *)
Lemma ratio_value a b : (a <= b)%N -> (0 < b)%N -> (b <= 9007199254740992)%N -> fval (f_div (f_of_u64 a) (f_of_u64 b)) (rnd (IZR (Z.of_N a) / IZR (Z.of_N b))).
Proof.
  intros H Hb Hm. assert (P : 0 < IZR (Z.of_N b)) by (apply IZR_lt; lia). apply fval_div; [apply fval_int; lia|apply fval_int; lia|lra|].
  assert (Q : 0 <= IZR (Z.of_N a) / IZR (Z.of_N b) <= 1).
  { split; [apply Rmult_le_pos; [apply IZR_le; lia|apply Rlt_le, Rinv_0_lt_compat, P]|]. apply Rmult_le_reg_r with (IZR (Z.of_N b)); [exact P|]. unfold Rdiv. rewrite Rmult_assoc, Rinv_l, Rmult_1_l, Rmult_1_r by lra. apply IZR_le. lia. }
  rewrite Rabs_pos_eq by lra. apply Rle_trans with 1; [lra|]. change 1 with (bpow radix2 0). apply bpow_le. lia.
Qed.
