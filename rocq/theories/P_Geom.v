(** Bucket and cache counts of created v2 filters, and when creation can panic. *)
From Coq Require Import Lia Reals Lra.
From Verif Require Import M_V2 Spec_Bits Spec_Hash Spec_V2 Spec_V2File Spec_Libm P_Base P_BitSet P_Hash P_V2 P_V2Sem P_IO P_V2Codec P_V2Make P_V2Size.
From Flocq Require Import Core BinarySingleNaN.
From Verif Require Import P_Float P_FloatDiv.
Open Scope N_scope.

(** A dividend below 2^53 over a divisor of 2^53 or more. *)
Lemma ceil_div_big a b : 1 <= a -> a < 9007199254740992 -> 9007199254740992 <= b -> b < two64 ->
  f_to_u64 (f_ceil (f_div (f_of_u64 a) (f_of_u64 b))) = 1.
Proof.
  intros H1 Ha Hb Hb2. pose proof (ceil_div_pos a b H1 ltac:(unfold two64; lia) Hb2) as P.
  assert (FA : fval (f_of_u64 a) (IZR (Z.of_N a))).
  { rewrite <- (rnd_format (IZR (Z.of_N a))) by (apply format_int; lia). apply fval_of_u64. unfold two64; lia. }
  assert (B1 : (IZR (2 ^ 53) <= rnd (IZR (Z.of_N b)))%R).
  { rewrite <- (rnd_format (IZR (2 ^ 53))) by (apply format_int; lia). apply rnd_le. apply IZR_le. lia. }
  pose proof (fval_of_u64 b Hb2) as FB. set (y := rnd (IZR (Z.of_N b))) in *.
  assert (A0 : (0 <= IZR (Z.of_N a))%R) by (apply IZR_le; lia).
  assert (A1 : (IZR (Z.of_N a) <= IZR (2 ^ 53))%R) by (apply IZR_le; lia).
  assert (Yp : (0 < IZR (2 ^ 53))%R) by (apply IZR_lt; lia).
  assert (Q0 : (0 <= IZR (Z.of_N a) / y)%R). { apply Rmult_le_pos; auto. left. apply Rinv_0_lt_compat. lra. }
  assert (Q1 : (IZR (Z.of_N a) / y <= 1)%R).
  { apply Rmult_le_reg_r with y; [lra|]. unfold Rdiv. rewrite Rmult_assoc, Rinv_l by lra. lra. }
  assert (D : fval (f_div (f_of_u64 a) (f_of_u64 b)) (rnd (IZR (Z.of_N a) / y))).
  { apply fval_div; auto. lra. rewrite Rabs_pos_eq by auto. apply Rle_trans with (1 := Q1). apply (bpow_le radix2 0). lia. }
  assert (R0 : (0 <= rnd (IZR (Z.of_N a) / y))%R). { rewrite <- rnd_0. now apply rnd_le. }
  assert (R1 : (rnd (IZR (Z.of_N a) / y) <= 1)%R). { rewrite <- (rnd_format 1) by (apply (format_int 1); lia). now apply rnd_le. }
  assert (C0 : (0 <= Zceil (rnd (IZR (Z.of_N a) / y)))%Z). { apply le_IZR. apply Rle_trans with (1 := R0). apply Zceil_ub. }
  assert (C1 : (Zceil (rnd (IZR (Z.of_N a) / y)) <= 1)%Z). { apply Zceil_glb. exact R1. }
  pose proof (fval_to_u64 _ _ (fval_ceil _ _ D) ltac:(apply IZR_le; exact C0)) as T. rewrite Zfloor_IZR in T. lia.
Qed.

(** The division of the capacity by the bucket capacity, exact for every divisor. *)
Lemma ceil_div_any a b : a < 9007199254740992 -> 1 <= b -> b < two64 ->
  f_to_u64 (f_ceil (f_div (f_of_u64 a) (f_of_u64 b))) = (a + b - 1) / b.
Proof.
  intros Ha H1 Hb. destruct (N.lt_ge_cases b 9007199254740992) as [L|G]. now apply ceil_div_exact.
  destruct (N.eq_dec a 0) as [->|Na].
  - rewrite N.add_0_l, N.div_small by lia. change (f_of_u64 0) with (S754_zero false).
    assert (E : f_div (S754_zero false) (f_of_u64 b) = S754_zero false).
    { destruct (fval_pos_finite _ _ (fval_of_u64 b Hb)) as (m & e & ->); [|reflexivity].
      apply Rlt_le_trans with 1%R; [lra|]. apply rnd_ge_1. lia. }
    rewrite E. reflexivity.
  - rewrite ceil_div_big by lia. apply N.div_unique with (a - 1); lia.
Qed.

Lemma bucket_cap_lt L p : v2_bucket_cap L p < two64.
Proof. apply f_to_u64_lt. Qed.
Lemma n_bucket0_exact L cap p : libm_ln2_sq L -> libm_ln_range L -> fpp_in_range p = true -> cap < 9007199254740992 ->
  v2_n_bucket0 L cap p = (cap + v2_bucket_cap L p - 1) / v2_bucket_cap L p.
Proof.
  intros A B R C. pose proof (bucket_cap_ge L p A B R). apply ceil_div_any; [exact C|lia|apply bucket_cap_lt].
Qed.

(** next_power_of_two on values up to 2^63. *)
Lemma next_pow2_val pr x : x <= 9223372036854775808 -> exists k, k < 64 /\ next_power_of_two pr x = Ok (2 ^ k) /\ x <= 2 ^ k /\ (1 <= x -> 2 ^ k < 2 * x).
Proof.
  intro Hx. unfold next_power_of_two. destruct (N.leb_spec x 1).
  - exists 0. split; [lia|]. split; [reflexivity|]. change (2 ^ 0) with 1. lia.
  - set (k := N.log2 (x - 1) + 1). pose proof (N.log2_spec (x - 1) ltac:(lia)) as [Q1 Q2].
    assert (K : k < 64). { assert (N.log2 (x - 1) < 63); [|lia]. apply N.log2_lt_pow2; [lia|]. change (2 ^ 63) with 9223372036854775808. lia. }
    exists k. split; [exact K|]. split.
    + assert (L : 2 ^ k < two64). { rewrite two64_pow. apply N.pow_lt_mono_r; lia. } apply N.ltb_lt in L. rewrite L. reflexivity.
    + unfold k in *. rewrite N.add_1_r in *. rewrite N.pow_succ_r' in *. split; [|intro]; lia.
Qed.

(** The least power of two at or above [x]. *)
Definition is_ceil_pow2 (x r : N) : Prop := (exists k, r = 2 ^ k) /\ x <= r /\ forall j, x <= 2 ^ j -> r <= 2 ^ j.
Lemma next_pow2_least pr x r : x <= 9223372036854775808 -> next_power_of_two pr x = Ok r -> is_ceil_pow2 x r.
Proof.
  intros Hx E. destruct (next_pow2_val pr x Hx) as (k & K & E' & L & U). rewrite E in E'. apply Ok_inj in E' as ->.
  split; [eauto|]. split; [exact L|]. intros j Hj. apply N.pow_le_mono_r; [lia|].
  destruct (N.le_gt_cases k j) as [Q|Q]; [exact Q|]. exfalso. destruct (N.eq_dec x 0) as [->|Nx].
  - assert (E' : next_power_of_two pr 0 = Ok (2 ^ 0)) by reflexivity. rewrite E in E'. apply Ok_inj in E'. apply N.pow_inj_r in E'; lia.
  - specialize (U ltac:(lia)). assert (2 ^ N.succ j <= 2 ^ k) by (apply N.pow_le_mono_r; lia). rewrite N.pow_succ_r' in H. lia.
Qed.

(** The cache of levels speed and best: bits = max(8, next power of two of the capacity). *)
Lemma cache_bits k : k < 64 -> exists j, 8 * byte_cap_from_bit_cap (2 ^ k) = 2 ^ j /\ 8 <= 2 ^ j /\ 2 ^ k <= 2 ^ j /\ (8 <= 2 ^ k -> j = k).
Proof.
  intro K. rewrite byte_cap_pow2 by exact K. destruct (N.ltb_spec k 3).
  - exists 3. assert (2 ^ k <= 2 ^ 2) by (apply N.pow_le_mono_r; lia). change (2 ^ 3) with 8. change (2 ^ 2) with 4 in *. lia.
  - exists k. change 8 with (2 ^ 3) at 1. rewrite <- N.pow_add_r. replace (3 + (k - 3)) with k by lia.
    assert (2 ^ 3 <= 2 ^ k) by (apply N.pow_le_mono_r; lia). change (2 ^ 3) with 8 in *. lia.
Qed.

(** Creation cannot panic for capacities below 2^53. *)
Lemma vec_of_fits {A} s (x : A) n : n * s <= isize_max -> vec_of s x n = Ok (repeat x (N.to_nat n)).
Proof. intro H. unfold vec_of. apply N.leb_le in H. now rewrite H. Qed.

Lemma make_succeeds pr L cap p opt : libm_ln2_sq L -> libm_ln_range L -> fpp_in_range p = true -> cap < 9007199254740992 ->
  exists f, v2_make pr L cap p opt = Ok f.
Proof.
  intros A B R C. pose proof (n_bucket0_exact L cap p A B R C) as E. pose proof (bucket_cap_ge L p A B R) as G.
  assert (NB : v2_n_bucket0 L cap p <= 562949953421312).
  { rewrite E. apply N.le_trans with (9007199254740992 / v2_bucket_cap L p + 1).
    - pose proof (N.div_mod (cap + v2_bucket_cap L p - 1) (v2_bucket_cap L p) ltac:(lia)).
      assert ((cap + v2_bucket_cap L p - 1) / v2_bucket_cap L p <= (9007199254740992 + 1 * v2_bucket_cap L p) / v2_bucket_cap L p) by (apply N.div_le_mono; lia).
      rewrite N.div_add in H0 by lia. lia.
    - assert (9007199254740992 / v2_bucket_cap L p <= 9007199254740992 / 19) by (apply N.div_le_compat_l; lia).
      change (9007199254740992 / 19) with 474063118670578 in H. lia. }
  unfold v2_make. rewrite R. cbn [negb]. cbv zeta. fold (v2_bucket_cap L p). fold (v2_n_bucket0 L cap p). fold (v2_n_hash0 L p).
  destruct (next_pow2_val pr cap ltac:(lia)) as (k & K & EK & _ & UK).
  destruct (next_pow2_val pr (v2_n_bucket0 L cap p) ltac:(lia)) as (j & J & EJ & LJ & UJ).
  assert (CB : byte_cap_from_bit_cap (2 ^ k) * 1 <= isize_max).
  { rewrite byte_cap_pow2 by exact K. destruct (k <? 3); [unfold isize_max; lia|]. assert (2 ^ (k - 3) <= 2 ^ 60) by (apply N.pow_le_mono_r; lia).
    change (2 ^ 60) with 1152921504606846976 in H. unfold isize_max; lia. }
  assert (NJ : 2 ^ j * BUCKET_SIZE <= isize_max).
  { unfold BUCKET_SIZE, isize_max. destruct (N.eq_dec (v2_n_bucket0 L cap p) 0) as [Z|Z].
    - rewrite Z in EJ. assert (EJ' : next_power_of_two pr 0 = Ok (2 ^ 0)) by reflexivity. rewrite EJ in EJ'. apply Ok_inj in EJ'. rewrite EJ'. cbn. lia.
    - specialize (UJ ltac:(lia)). lia. }
  assert (NB' : v2_n_bucket0 L cap p * BUCKET_SIZE <= isize_max) by (unfold BUCKET_SIZE, isize_max; lia).
  unfold bs_with_bit_capacity. destruct opt; rewrite ?EK, ?EJ; cbn [obind].
  all: rewrite vec_of_fits; [cbn [obind]|first [exact CB | rewrite byte_cap_0; cbn; discriminate]].
  all: rewrite vec_of_fits; [cbn [obind]; eauto|assumption].
Qed.
