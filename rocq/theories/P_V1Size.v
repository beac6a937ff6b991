(** Sizes of v1 filters: the bit vector has the announced number of bits in every created filter, for every libm. *)
From Coq Require Import Lia Reals Lra.
From Verif Require Import M_V1 Spec_Bits Spec_Hash Spec_V2 Spec_V1 P_Base P_BitSet P_Hash P_V1 P_V2Make.
From Flocq Require Import Core BinarySingleNaN.
From Verif Require Import P_Float P_FloatDiv.
Open Scope N_scope.

(** ** u64_size *)
Definition r64 (x : N) : Z := Zceil (rnd (IZR (Z.of_N x)) / 64).
Lemma fval_64 : fval (f_of_u64 64) 64.
Proof. replace 64%R with (rnd (IZR (Z.of_N 64))). apply fval_of_u64. reflexivity. apply rnd_format. apply format_int. lia. Qed.
Lemma div64_format x : format x -> Rabs x = 0%R \/ (1 <= Rabs x)%R -> format (x / 64).
Proof.
  intros H Hx. destruct Hx as [Z|Hx].
  { assert (x = 0%R) as ->. { destruct (Req_dec x 0); auto. apply Rabs_no_R0 in H0. contradiction. }
    unfold Rdiv. rewrite Rmult_0_l. apply generic_format_0. }
  replace (x / 64)%R with (x * bpow radix2 (-6))%R by (cbn; lra).
  apply format_inv in H as (m & e & -> & Hm & He).
  rewrite Rmult_assoc, <- bpow_plus. apply format_spec; auto.
  enough (-54 <= e)%Z by lia. destruct (Z_lt_le_dec e (-54)); auto. exfalso.
  assert (Rabs (IZR m * bpow radix2 e) < 1)%R; [|lra].
  rewrite Rabs_mult, <- abs_IZR, (Rabs_pos_eq (bpow radix2 e)) by apply bpow_ge_0.
  assert (IZR (Z.abs m) < bpow radix2 53)%R by (rewrite IZR_bpow by lia; now apply IZR_lt).
  assert (bpow radix2 e <= bpow radix2 (-55))%R by (apply bpow_le; lia).
  apply Rle_lt_trans with (bpow radix2 53 * bpow radix2 (-55))%R.
  - apply Rmult_le_compat; try lra. apply IZR_le; lia. apply bpow_ge_0.
  - rewrite <- bpow_plus. change 1%R with (bpow radix2 0). apply bpow_lt. lia.
Qed.
Lemma u64_size_r64 x : x < two64 -> Z.of_N (v1_u64_size x) = r64 x /\ (0 <= r64 x <= 2 ^ 58)%Z.
Proof.
  intro H. unfold v1_u64_size, r64. pose proof (rnd_u64_bounds x H) as B.
  assert (D : fval (f_div (f_of_u64 x) (f_of_u64 64)) (rnd (IZR (Z.of_N x)) / 64)).
  { rewrite <- (rnd_format (rnd (IZR (Z.of_N x)) / 64)).
    - apply fval_div; [apply fval_of_u64; auto|apply fval_64|lra|].
      rewrite Rabs_pos_eq by lra. apply Rle_trans with (bpow radix2 64); [pose proof (bpow_gt_0 radix2 64); lra|apply bpow_le; lia].
    - apply div64_format. apply format_rnd. apply rnd_int_cases. lia. }
  assert (Q : (0 <= Zceil (rnd (IZR (Z.of_N x)) / 64) <= 2 ^ 58)%Z).
  { split. rewrite <- (Zceil_IZR 0). apply Zceil_le. lra. apply Zceil_glb. change (IZR (2 ^ 58)) with (bpow radix2 58).
    replace (bpow radix2 64) with (bpow radix2 58 * 64)%R in B by (change 64%R with (bpow radix2 6); rewrite <- bpow_plus; reflexivity). lra. }
  split; auto. rewrite (fval_to_u64 _ _ (fval_ceil _ _ D)).
  - rewrite Zfloor_IZR. apply Z.min_r. lia.
  - apply IZR_le. lia.
Qed.
Lemma u64_size_le x : x < two64 -> v1_u64_size x <= 288230376151711744.
Proof. intro H. destruct (u64_size_r64 x H) as [A B]. lia. Qed.
Lemma u64_size_alloc x : x < two64 -> v1_u64_size x * 8 <= isize_max.
Proof. intro H. pose proof (u64_size_le x H). unfold isize_max. lia. Qed.
Lemma u64_size_0 : v1_u64_size 0 = 0. Proof. vm_compute. reflexivity. Qed.
Lemma u64_size_pos x : x < two64 -> x <> 0 -> 1 <= v1_u64_size x.
Proof. intros H N0. unfold v1_u64_size. apply ceil_div_pos; auto. lia. reflexivity. Qed.
(** When rounding the bit count to a double does not lower it, the vector is long enough. *)
Lemma u64_size_covers x : x < two64 -> (IZR (Z.of_N x) <= rnd (IZR (Z.of_N x)))%R -> x <= 64 * v1_u64_size x.
Proof.
  intros H R. destruct (u64_size_r64 x H) as [A _]. enough (Z.of_N x <= 64 * Z.of_N (v1_u64_size x))%Z by lia. rewrite A. unfold r64.
  set (y := (rnd (IZR (Z.of_N x)) / 64)%R). pose proof (Zceil_ub y) as U. apply le_IZR. rewrite mult_IZR. subst y. lra.
Qed.
Lemma u64_size_exact x : x <= 9007199254740992 -> v1_u64_size x = (x + 63) / 64.
Proof.
  intro H. destruct (u64_size_r64 x) as [A _]; [unfold two64; lia|]. apply N2Z.inj. rewrite A. unfold r64.
  rewrite rnd_format by (apply format_int; lia).
  rewrite N2Z.inj_div, N2Z.inj_add. change (Z.of_N 64) with 64%Z. change (Z.of_N 63) with 63%Z.
  unfold Zceil. replace (- (IZR (Z.of_N x) / 64))%R with (IZR (- Z.of_N x) / 64)%R by (rewrite opp_IZR; lra).
  rewrite Zfloor_div by lia.
  pose proof (Z.div_mod (Z.of_N x + 63) 64). pose proof (Z.mod_pos_bound (Z.of_N x + 63) 64).
  pose proof (Z.div_mod (- Z.of_N x) 64). pose proof (Z.mod_pos_bound (- Z.of_N x) 64). lia.
Qed.
Lemma u64_size_small x : x <= 9007199254740992 -> x <= 64 * v1_u64_size x.
Proof. intro H. rewrite u64_size_exact by auto. pose proof (N.div_mod (x + 63) 64). pose proof (N.mod_lt (x + 63) 64). lia. Qed.

(** ** bit_size of created filters *)
Lemma sfdiv_valid a b : valid_binary 53 1024 (f_div a b) = true.
Proof.
  destruct a as [sa|sa| |sa ma ea], b as [sb|sb| |sb mb eb]; try reflexivity.
  unfold f_div, SFdiv. pose proof (Bdiv_correct_aux 53 1024 Hprec Hmax mode_NE sa ma ea sb mb eb) as Q. cbv zeta in Q.
  destruct (SFdiv_core_binary 53 1024 (Zpos ma) ea (Zpos mb) eb) as [[mz ez] lz].
  rewrite binary_round_aux_equiv. apply Q.
Qed.
Lemma valid_cases a : valid_binary 53 1024 a = true -> (exists x, fval a x) \/ a = S754_nan \/ exists s, a = S754_infinity s.
Proof.
  intro V. destruct a as [s|s| |s m e]; eauto.
  - left. exists 0%R. exists (B754_zero s). auto.
  - left. exists (B2R (SF2B (S754_finite s m e) V : bf64)). exists (SF2B (S754_finite s m e) V). split; [apply B2SF_SF2B|]. split; reflexivity.
Qed.
Lemma rnd_max : (IZR (2 ^ 64 - 1) <= rnd (IZR (2 ^ 64 - 1)))%R.
Proof.
  assert (H : fval (f_of_u64 u64_max) (rnd (IZR (Z.of_N u64_max)))) by (apply fval_of_u64; reflexivity).
  assert (E : f_of_u64 u64_max = S754_finite false 4503599627370496 12) by (vm_compute; reflexivity). rewrite E in H.
  assert (V : SpecFloat.bounded 53 1024 4503599627370496 12 = true) by reflexivity.
  pose proof (fval_fun _ _ _ H (fval_finite false 4503599627370496 12 V)) as Q. cbn [B2R] in Q. unfold F2R in Q. cbn [Fnum Fexp cond_Zopp] in Q.
  change (Z.of_N u64_max) with (2 ^ 64 - 1)%Z in Q. rewrite Q. rewrite IZR_bpow by lia. rewrite <- mult_IZR. apply IZR_le. vm_compute. discriminate.
Qed.
Lemma bu_bit_size_round L cap p : (IZR (Z.of_N (bu_bit_size L cap p)) <= rnd (IZR (Z.of_N (bu_bit_size L cap p))))%R.
Proof.
  unfold bu_bit_size. set (q := f_div _ _). pose proof (sfdiv_valid (f_mul (f_of_u64 cap) (lm_ln L (sf_of_bits p))) (ln2_sq L)) as V. fold q in V.
  assert (Z0 : (0 <= rnd 0)%R) by (rewrite rnd_0; lra). pose proof rnd_max as MAX.
  destruct (valid_cases q V) as [[x Hx]|[E|[s E]]].
  2:{ rewrite E. exact Z0. }
  2:{ rewrite E. exact MAX. }
  pose proof (fval_abs _ _ (fval_ceil _ _ Hx)) as A. rewrite <- abs_IZR in A.
  pose proof (fval_to_u64 _ _ A) as T. rewrite T by (apply IZR_le; lia). rewrite Zfloor_IZR.
  destruct (Z.min_spec (2 ^ 64 - 1) (Z.abs (Zceil x))) as [[_ ->]|[_ ->]]; [exact MAX|].
  rewrite rnd_format; [lra|]. exact (fval_format _ _ A).
Qed.
Lemma bu_bit_size_lt L cap p : bu_bit_size L cap p < two64.
Proof. apply f_to_u64_lt. Qed.
Lemma bu_bit_size_covers L cap p : bu_bit_size L cap p <= 64 * v1_u64_size (bu_bit_size L cap p).
Proof. apply u64_size_covers. apply bu_bit_size_lt. apply bu_bit_size_round. Qed.
Lemma bu_k_zero L cap : bu_k L 0 cap = 0.
Proof.
  unfold bu_k. change (f_of_u64 0) with (S754_zero false).
  assert (M : f_mul (ln2 L) (S754_zero false) = S754_nan \/ exists s, f_mul (ln2 L) (S754_zero false) = S754_zero s)
    by (destruct (ln2 L); cbn; eauto).
  destruct M as [->|[s ->]].
  - destruct (f_of_u64 cap); reflexivity.
  - destruct (f_of_u64 cap); cbn; try reflexivity.
Qed.
