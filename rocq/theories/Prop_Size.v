(** Sizes against the theoretical optimum (C36). *)
From Coq Require Import Lia Reals Lra.
From Verif Require Import M_Bloom M_RefLibm Spec_Bits Spec_V2 Spec_V1 Spec_Libm Spec_Real P_Base P_V2Make P_V2Size P_V1Size P_V1Codec P_Geom P_FloatDiv P_Real P_RealLibm Ex_Base.
Open Scope R_scope.

(** The hypotheses about the math library used in this development hold together for the library that rounds the real
    functions to nearest. *)
Lemma real_libm_meets_all : libm_accurate real_libm /\ libm_ln2_sq real_libm /\ libm_ln1 real_libm /\ libm_ln_range real_libm.
Proof. split; [exact real_libm_accurate|]. split; [exact real_libm_ln2_sq|]. split; [exact real_libm_ln1|exact real_libm_ln_range]. Qed.
Print Assumptions real_libm_meets_all.

Lemma optimal_rl n p : fpp_in_range p = true -> optimal_bits n (sf_R (sf_of_bits p)) = IZR (Z.of_N n) * rl p / s2.
Proof.
  intro H. destruct (fpp_real p H) as [_ [A _]]. pose proof (Flocq.Core.Raux.bpow_gt_0 Flocq.Core.Zaux.radix2 (-1022)) as P.
  unfold optimal_bits, rl, s2. rewrite ln_Rinv by lra. reflexivity.
Qed.
Lemma eps_48 : powerRZ 2 (-48) = 32 * eps.
Proof.
  unfold eps. change 32 with (Flocq.Core.Raux.bpow Flocq.Core.Zaux.radix2 5). rewrite <- Flocq.Core.Raux.bpow_plus, Flocq.Core.Raux.bpow_powerRZ. reflexivity.
Qed.

(** * C36 Sizing meets the theoretical optimum *)
(** The buckets of a v2 filter hold at least n ln(1/p) / ln(2)^2 bits, up to a relative error of 2^-48, at every level. *)
Theorem C36_v2_size pr L cap fpp opt f : libm_accurate L -> (cap < two64)%N -> v2_make pr L cap fpp opt = Ok f ->
  optimal_bits cap (sf_R (sf_of_bits fpp)) * (1 - powerRZ 2 (-48)) <= IZR (Z.of_N (32768 * len (v2_buckets f))).
Proof.
  intros HL Hc E. apply v2_make_created in E as Cr. apply v2_make_dims in E as D. pose proof (cr_fpp_range _ _ _ _ Cr) as R.
  rewrite optimal_rl, eps_48, N2Z.inj_mul, mult_IZR by exact R. change (IZR (Z.of_N 32768)) with 32768.
  assert (Lb : len (v2_buckets f) = v2_n_buckets f) by (rewrite (cr_buckets _ _ _ _ Cr) at 1; apply len_repeatN). rewrite Lb.
  pose proof (n_bucket0_real L cap fpp HL R Hc) as B. destruct (rl_nonneg fpp R) as [P|P].
  2:{ rewrite <- P. unfold Rdiv. rewrite Rmult_0_r, !Rmult_0_l. apply Rmult_le_pos; [lra|]. apply IZR_le. lia. }
  apply Rle_trans with (1 := B). apply Rmult_le_compat_l; [lra|]. apply IZR_le, N2Z.inj_le. destruct opt.
  - destruct D as [-> _]. apply N.le_refl.
  - destruct D as [-> _]. apply N.le_refl.
  - destruct D as [D _]. apply next_pow2_pos in D; [apply D|]. right. destruct (bucket_cap_real L fpp HL R P) as [C _].
    apply ceil_div_le; [exact Hc|lia|apply bucket_cap_lt].
  - destruct D as [-> _]. apply N.le_refl.
Qed.
Print Assumptions C36_v2_size.
(** A bucket takes the number of entries for which 32768 bits are optimal, rounded down. *)
Theorem C36_v2_bucket_capacity L fpp : libm_accurate L -> fpp_in_range fpp = true -> sf_R (sf_of_bits fpp) < 1 ->
  let o := 32768 * (ln 2 * ln 2) / ln (/ sf_R (sf_of_bits fpp)) in
  (15 <= v2_bucket_cap L fpp)%N /\ IZR (Z.of_N (v2_bucket_cap L fpp)) <= o * (1 + powerRZ 2 (-48)) /\
  (v2_bucket_cap L fpp = u64_max \/ o * (1 - powerRZ 2 (-48)) - 1 <= IZR (Z.of_N (v2_bucket_cap L fpp))).
Proof.
  intros HL R P. destruct (fpp_real fpp R) as [_ [A _]]. pose proof (Flocq.Core.Raux.bpow_gt_0 Flocq.Core.Zaux.radix2 (-1022)) as Q.
  cbv zeta. rewrite eps_48, ln_Rinv by lra. fold (rl fpp). fold s2. fold (bopt fpp). apply bucket_cap_real; [exact HL|exact R|].
  unfold rl. assert (ln (sf_R (sf_of_bits fpp)) < ln 1) by (apply ln_increasing; lra). rewrite ln_1 in H. lra.
Qed.
Print Assumptions C36_v2_bucket_capacity.
(** A v1 filter uses the optimal number of bits rounded down (up to the same relative error), unless that exceeds 2^64. *)
Theorem C36_v1_size L cap fpp f : libm_accurate L -> (cap < two64)%N -> v1_with_capacity L cap fpp = Ok f ->
  let o := optimal_bits cap (sf_R (sf_of_bits fpp)) in
  IZR (Z.of_N (v1_bit_size f)) <= o * (1 + powerRZ 2 (-48)) /\
  (v1_bit_size f = u64_max \/ o * (1 - powerRZ 2 (-48)) - 1 < IZR (Z.of_N (v1_bit_size f))).
Proof.
  intros HL Hc E. unfold v1_with_capacity in E. destruct (fpp_in_range fpp) eqn:R; [|discriminate]. cbn [negb] in E. cbv zeta in E.
  apply obind_Ok_inv in E as (b & _ & E). apply Ok_inj in E. subst f. cbn [v1_bit_size]. cbv zeta. rewrite optimal_rl, eps_48 by exact R.
  exact (bit_size_real L cap fpp HL R Hc).
Qed.
Print Assumptions C36_v1_size.
(** The hypotheses are met: filters for 10000 entries at 1% made with the correctly rounded library. *)
Example C36_example : libm_accurate real_libm /\ (exists f, v2_make Debug real_libm 10000 p001 OSpeed = Ok f) /\ exists g, v1_with_capacity real_libm 10000 p001 = Ok g.
Proof.
  split; [exact real_libm_accurate|]. split.
  - apply make_succeeds; [exact real_libm_ln2_sq|exact real_libm_ln_range|vm_compute; reflexivity|lia].
  - unfold v1_with_capacity. replace (fpp_in_range p001) with true by (vm_compute; reflexivity). cbn [negb]. cbv zeta.
    rewrite vec_of_fits; [cbn [obind]; eauto|]. apply u64_size_alloc, bu_bit_size_lt.
Qed.
