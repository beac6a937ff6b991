(** Sizes of created v2 filters. *)
From Coq Require Import Lia Reals Lra.
From Verif Require Import M_V2 Spec_Bits Spec_Hash Spec_V2 Spec_V2File Spec_Libm P_Base P_BitSet P_Hash P_V2 P_V2Sem P_IO P_V2Codec P_V2Make.
From Flocq Require Import Core BinarySingleNaN.
From Verif Require Import P_Float P_FloatDiv.
Open Scope N_scope.

(** The three quantities computed by make, before the optimisation level is looked at. *)
Definition v2_bucket_cap (L : libm) (fpp : N) : N := bu_cap_from_bit_size L bucket_bit_size fpp.
Definition v2_n_bucket0 (L : libm) (cap fpp : N) : N := f_to_u64 (f_ceil (f_div (f_of_u64 cap) (f_of_u64 (v2_bucket_cap L fpp)))).
Definition v2_n_hash0 (L : libm) (fpp : N) : N := f_to_u64 (f_ceil (f_of_u64 (bu_k L bucket_bit_size (v2_bucket_cap L fpp)))).

(** The dimensions of a created filter. *)
Lemma v2_make_dims pr L cap fpp opt f : v2_make pr L cap fpp opt = Ok f ->
  match opt with
  | ONone | OSpace => v2_n_buckets f = v2_n_bucket0 L cap fpp /\ v2_cache_byte_size f = 0 /\ v2_n_hash_buck f = v2_n_hash0 L fpp
  | OSpeed => next_power_of_two pr (v2_n_bucket0 L cap fpp) = Ok (v2_n_buckets f) /\
      exists c, next_power_of_two pr cap = Ok c /\ v2_cache_byte_size f = byte_cap_from_bit_cap c
  | OBest => v2_n_buckets f = v2_n_bucket0 L cap fpp /\
      exists c, next_power_of_two pr cap = Ok c /\ v2_cache_byte_size f = byte_cap_from_bit_cap c
  end.
Proof.
  unfold v2_make. destruct (fpp_in_range fpp) eqn:FR; cbn [negb]; [|discriminate]. cbv zeta.
  fold (v2_bucket_cap L fpp). fold (v2_n_bucket0 L cap fpp). fold (v2_n_hash0 L fpp).
  intro E. apply obind_Ok_inv in E as ([[cbs nb] nh] & E0 & E).
  apply obind_Ok_inv in E as (ic & E1 & E). apply obind_Ok_inv in E as (bks & E2 & E). apply Ok_inj in E. subst f.
  unfold bs_with_bit_capacity in E1. apply vec_of_Ok in E1 as [-> _]. apply vec_of_Ok in E2 as [-> BL].
  cbn [v2_flags v2_index_cache v2_n_buckets v2_cache_byte_size v2_capacity v2_fpp v2_n_hash_buck v2_count v2_buckets v2_data].
  unfold bs_byte_len. rewrite len_repeatN.
  destruct opt.
  - apply Ok_inj in E0. injection E0 as <- <- <-. rewrite byte_cap_0. auto.
  - apply Ok_inj in E0. injection E0 as <- <- <-. rewrite byte_cap_0. auto.
  - apply obind_Ok_inv in E0 as (c & E0 & E1). apply obind_Ok_inv in E1 as (n & E1 & E2). apply Ok_inj in E2. injection E2 as <- <- _. eauto.
  - apply obind_Ok_inv in E0 as (c & E0 & E1). apply Ok_inj in E1. injection E1 as <- <- _. eauto.
Qed.

(** next_power_of_two. *)
Lemma next_pow2_pos pr x r : next_power_of_two pr x = Ok r -> pr = Debug \/ x <= 9223372036854775808 -> r <> 0 /\ x <= r.
Proof.
  unfold next_power_of_two. set (y := if x <=? 1 then 1 else _). intros H C.
  assert (Y : y <> 0 /\ x <= y /\ (x <= 9223372036854775808 -> y < two64)).
  { subst y. destruct (N.leb_spec x 1); [unfold two64; lia|]. split. apply N.pow_nonzero; lia.
    split.
    - pose proof (N.log2_spec (x - 1) ltac:(lia)) as [_ Q]. rewrite N.add_1_r. lia.
    - intro Hx. rewrite two64_pow. apply N.pow_lt_mono_r; [lia|]. assert (N.log2 (x - 1) <= 62); [|lia].
      assert (N.log2 (x - 1) < 63); [|lia]. apply N.log2_lt_pow2; [lia|]. change (2 ^ 63) with 9223372036854775808. lia. }
  destruct Y as (Y0 & Y1 & Y2). destruct (N.ltb_spec y two64).
  - apply Ok_inj in H as <-. auto.
  - destruct pr; [discriminate|]. destruct C; [discriminate|]. lia.
Qed.
Lemma byte_cap_pow2_pos k : k < 64 -> byte_cap_from_bit_cap (2 ^ k) <> 0.
Proof. intro H. rewrite byte_cap_pow2 by auto. destruct (k <? 3); [lia|]. apply N.pow_nonzero; lia. Qed.

(** Levels speed and best have a cache, unless the capacity exceeds 2^63 in a release build. *)
Lemma make_cache pr L cap fpp opt f : v2_make pr L cap fpp opt = Ok f -> opt = OSpeed \/ opt = OBest ->
  pr = Debug \/ cap <= 9223372036854775808 -> v2_index_cache f <> [].
Proof.
  intros E O C. apply v2_make_dims in E as D. apply v2_make_created in E as Cr.
  assert (X : exists c, next_power_of_two pr cap = Ok c /\ v2_cache_byte_size f = byte_cap_from_bit_cap c) by (destruct O; subst opt; tauto).
  destruct X as (c & N1 & N2). destruct (next_pow2_pos _ _ _ N1 C) as [P _].
  apply next_pow2_spec in N1 as [->|(k & Hk & ->)]; [easy|].
  intro Z. apply (byte_cap_pow2_pos k Hk). rewrite <- N2. rewrite (cr_cache _ _ _ _ Cr) in Z. apply len_0 in Z. now rewrite len_repeatN in Z.
Qed.

(** Levels none and space have at least one hash function. *)
Lemma ceil_of_u64_pos x : x < two64 -> 1 <= x -> 1 <= f_to_u64 (f_ceil (f_of_u64 x)).
Proof.
  intros Hx H1. pose proof (fval_ceil _ _ (fval_of_u64 x Hx)) as F.
  assert (1 <= rnd (IZR (Z.of_N x)))%R by (apply rnd_ge_1; lia).
  assert (1 <= Zceil (rnd (IZR (Z.of_N x))))%Z by (apply le_IZR; apply Rle_trans with (rnd (IZR (Z.of_N x))); [lra|apply Zceil_ub]).
  assert (Z.of_N (f_to_u64 (f_ceil (f_of_u64 x))) >= 1)%Z; [|lia].
  rewrite (fval_to_u64 _ _ F) by (apply IZR_le; lia). rewrite Zfloor_IZR. lia.
Qed.
Lemma bu_k_pos L c : libm_ln2 L -> c < two64 -> 1 <= bu_k L bucket_bit_size c.
Proof.
  intros HL Hc. unfold bu_k, ln2. rewrite HL.
  assert (E : f_mul (S754_finite false 6243314768165359 (-53)) (f_of_u64 bucket_bit_size) = S754_finite false 6243314768165359 (-38)) by (vm_compute; reflexivity).
  rewrite E. assert (Hb : bounded 53 1024 6243314768165359 (-38) = true) by (vm_compute; reflexivity).
  eapply ceil_quot_pos; eauto. apply (fval_finite _ _ _ Hb).
  cbn [B2R]. unfold F2R. cbn [Fnum Fexp cond_Zopp]. split.
  - apply Rle_trans with (1 * bpow radix2 (-38))%R. rewrite Rmult_1_l. apply bpow_le; lia. apply Rmult_le_compat_r. apply bpow_ge_0. apply IZR_le. lia.
  - apply Rle_trans with (bpow radix2 53 * bpow radix2 (-38))%R. apply Rmult_le_compat_r. apply bpow_ge_0. rewrite IZR_bpow by lia. apply IZR_le. lia.
    rewrite <- bpow_plus. apply bpow_le. lia.
Qed.
Lemma make_n_hash pr L cap fpp opt f : libm_ln2 L -> v2_make pr L cap fpp opt = Ok f -> opt = ONone \/ opt = OSpace -> v2_n_hash_buck f <> 0.
Proof.
  intros HL E O. apply v2_make_dims in E. assert (X : v2_n_hash_buck f = v2_n_hash0 L fpp) by (destruct O; subst opt; tauto).
  rewrite X. unfold v2_n_hash0. assert (1 <= f_to_u64 (f_ceil (f_of_u64 (bu_k L bucket_bit_size (v2_bucket_cap L fpp))))); [|lia].
  apply ceil_of_u64_pos. apply f_to_u64_lt. apply bu_k_pos; auto. apply f_to_u64_lt.
Qed.
(** A positive capacity gives at least one bucket. *)
Lemma n_bucket0_pos L cap fpp : 1 <= cap -> cap < two64 -> 1 <= v2_n_bucket0 L cap fpp.
Proof. intros. apply ceil_div_pos; auto. apply f_to_u64_lt. Qed.

(** ** The per-bucket capacity *)
Lemma f_leb_R a b x y : fval a x -> fval b y -> f_leb a b = true -> (x <= y)%R.
Proof.
  intros (p & <- & Fp & <-) (q & <- & Fq & <-) H. change (Bleb p q = true) in H. rewrite Bleb_correct in H by auto. destruct (Rle_bool_spec (B2R p) (B2R q)); [auto|discriminate].
Qed.
Lemma valid_fval a : valid_binary 53 1024 a = true -> a <> S754_nan -> (forall s, a <> S754_infinity s) -> exists x, fval a x.
Proof.
  intros V Nn Ni. exists (B2R (SF2B a V : bf64)). exists (SF2B a V). split; [apply B2SF_SF2B|]. split; auto.
  destruct a; auto. now destruct (Ni s).
Qed.
Lemma fval_800 : fval (f_opp (f_of_u64 800)) (-800).
Proof.
  replace (-800)%R with (- rnd (IZR (Z.of_N 800)))%R. apply fval_opp, fval_of_u64. reflexivity.
  rewrite rnd_format by (apply format_int; lia). cbn [Z.of_N]. lra.
Qed.
Lemma fval_m60 : fval (S754_finite true 4503599627370496 (-112)) (- bpow radix2 (-60)).
Proof.
  assert (Hb : bounded 53 1024 4503599627370496 (-112) = true) by (vm_compute; reflexivity).
  pose proof (fval_finite true _ _ Hb) as F. cbn [B2R] in F. unfold F2R in F. cbn [Fnum Fexp cond_Zopp] in F.
  assert (E : (- bpow radix2 (-60))%R = (IZR (Z.opp 4503599627370496) * bpow radix2 (-112))%R); [|rewrite E; exact F].
  replace (IZR (Z.opp 4503599627370496)) with (- bpow radix2 52)%R.
  - rewrite <- Ropp_mult_distr_l, <- bpow_plus. reflexivity.
  - rewrite IZR_bpow by lia. rewrite <- opp_IZR. reflexivity.
Qed.
Lemma digits_unique p d : (2 ^ (d - 1) <= Zpos p < 2 ^ d)%Z -> (0 < d)%Z -> Zpos (digits2_pos p) = d.
Proof. intros H Hd. rewrite Digits.Zpos_digits2_pos. apply Digits.Zdigits_unique. rewrite Z.abs_eq by lia. exact H. Qed.
Lemma digits_le p d : (Zpos p < 2 ^ d)%Z -> (0 <= d)%Z -> (Zpos (digits2_pos p) <= d)%Z.
Proof. intros H Hd. rewrite Digits.Zpos_digits2_pos. apply Digits.Zdigits_le_Zpower. rewrite Z.abs_eq by lia. exact H. Qed.
(** Every bit pattern is a double. *)
Lemma sf_of_bits_valid b : valid_binary 53 1024 (sf_of_bits b) = true.
Proof.
  unfold sf_of_bits. set (s := N.testbit b 63). set (e := (b / 4503599627370496) mod 2048). set (m := b mod 4503599627370496).
  assert (He : e < 2048) by (apply N.mod_lt; discriminate). assert (Hm : m < 4503599627370496) by (apply N.mod_lt; discriminate).
  clearbody s e m. destruct (N.eqb_spec e 0) as [E|E].
  - destruct m as [|p]; [reflexivity|]. cbn [valid_binary]. unfold SpecFloat.bounded, SpecFloat.canonical_mantissa. apply andb_true_iff. split; [|reflexivity].
    apply Zeq_bool_true. unfold SpecFloat.fexp, SpecFloat.emin. pose proof (digits_le p 52 ltac:(change (2 ^ 52)%Z with 4503599627370496%Z; lia) ltac:(lia)). lia.
  - destruct (N.eqb_spec e 2047) as [E1|E1]; [destruct (m =? 0); reflexivity|].
    destruct (m + 4503599627370496) as [|p] eqn:P; [reflexivity|]. cbn [valid_binary]. unfold SpecFloat.bounded, SpecFloat.canonical_mantissa.
    rewrite (digits_unique p 53); [|change (2 ^ (53 - 1))%Z with 4503599627370496%Z; change (2 ^ 53)%Z with 9007199254740992%Z; lia|lia].
    apply andb_true_iff. split; [apply Zeq_bool_true; unfold SpecFloat.fexp, SpecFloat.emin; lia|apply Z.leb_le; lia].
Qed.
Lemma ln_cases L x : libm_ln_range L -> valid_binary 53 1024 x = true -> f_leb (sf_of_bits bits_min_positive) x = true -> f_leb x f_one = true ->
  (exists s, lm_ln L x = S754_zero s) \/ exists r, fval (lm_ln L x) r /\ (-800 <= r <= - bpow radix2 (-60))%R.
Proof.
  intros HL H0 H1 H2. destruct (HL x H0 H1 H2) as [Z|[Z|(V & A & B)]]; [left; eauto|left; eauto|right].
  destruct (valid_fval _ V) as [r F].
  - intro E. rewrite E in A. discriminate.
  - intros s E. rewrite E in A, B. destruct s; discriminate.
  - exists r. split; auto. split; [eapply f_leb_R; [apply fval_800|apply F|auto]|eapply f_leb_R; [apply F|apply fval_m60|auto]].
Qed.
Lemma ln_range_cases L p : libm_ln_range L -> fpp_in_range p = true ->
  (exists s, lm_ln L (sf_of_bits p) = S754_zero s) \/ exists x, fval (lm_ln L (sf_of_bits p)) x /\ (-800 <= x <= - bpow radix2 (-60))%R.
Proof.
  intros HL Hp. unfold fpp_in_range in Hp. apply andb_true_iff in Hp as [A B]. apply ln_cases; auto using sf_of_bits_valid.
Qed.
(** 32768 * ln(2)^2 *)
Definition num_val : R := (IZR 8655072057804174 * bpow radix2 (-39))%R.
Lemma num_fval L : libm_ln2_sq L -> exists m e, f_mul (f_of_u64 bucket_bit_size) (ln2_sq L) = S754_finite false m e /\ fval (f_mul (f_of_u64 bucket_bit_size) (ln2_sq L)) num_val.
Proof.
  intros [_ H]. unfold ln2_sq, ln2. rewrite H.
  assert (E : f_mul (f_of_u64 bucket_bit_size) (S754_finite false 8655072057804174 (-54)) = S754_finite false 8655072057804174 (-39)) by (vm_compute; reflexivity).
  rewrite E. exists 8655072057804174%positive, (-39)%Z. split; auto.
  assert (Hb : bounded 53 1024 8655072057804174 (-39) = true) by (vm_compute; reflexivity). apply (fval_finite false _ _ Hb).
Qed.
Lemma num_bounds : (15743 < num_val < 15744)%R.
Proof.
  unfold num_val. change (-39)%Z with (- (39))%Z. rewrite bpow_opp, IZR_bpow by lia. change (2 ^ 39)%Z with 549755813888%Z. lra.
Qed.
Lemma bucket_cap_ge L p : libm_ln2_sq L -> libm_ln_range L -> fpp_in_range p = true -> 19 <= v2_bucket_cap L p.
Proof.
  intros H2 HL Hp. unfold v2_bucket_cap, bu_cap_from_bit_size. destruct (num_fval L H2) as (m & e & En & Fn).
  destruct (ln_range_cases L p HL Hp) as [[s Z]|(x & Fx & Hx)].
  - rewrite Z, En. destruct s; cbn; unfold u64_max; lia.
  - pose proof num_bounds as NB. pose proof (bpow_gt_0 radix2 (-60)) as P.
    assert (Q : (19 <= Rabs (num_val / x))%R).
    { rewrite Rabs_left1. 2:{ unfold Rdiv. assert (/ x < 0)%R by (apply Rinv_lt_0_compat; lra). nra. }
      apply Rmult_le_reg_r with (- x)%R; [lra|]. replace (- (num_val / x) * - x)%R with num_val by (field; lra). nra. }
    assert (D : fval (f_div (f_mul (f_of_u64 bucket_bit_size) (ln2_sq L)) (lm_ln L (sf_of_bits p))) (rnd (num_val / x))).
    { apply fval_div; auto. lra. unfold Rdiv. rewrite Rabs_mult, Rabs_inv, (Rabs_pos_eq num_val), (Rabs_left x) by lra.
      apply Rle_trans with (15744 * bpow radix2 60)%R.
      - apply Rmult_le_compat; try lra. left. apply Rinv_0_lt_compat. lra.
        replace (bpow radix2 60) with (/ bpow radix2 (-60))%R. apply Rinv_le; lra. rewrite <- bpow_opp. reflexivity.
      - apply Rle_trans with (bpow radix2 14 * bpow radix2 60)%R. apply Rmult_le_compat_r. apply bpow_ge_0. rewrite IZR_bpow by lia. apply IZR_le; lia.
        rewrite <- bpow_plus. apply bpow_le; lia. }
    pose proof (fval_to_u64 _ _ (fval_abs _ _ D) (Rabs_pos _)) as T.
    assert (R19 : (19 <= Rabs (rnd (num_val / x)))%R).
    { unfold rnd. apply abs_round_ge_generic; auto with typeclass_instances. apply (format_int 19). lia. }
    assert (19 <= Zfloor (Rabs (rnd (num_val / x))))%Z. { apply Zfloor_lub. exact R19. }
    lia.
Qed.
Lemma ceil_div_le a b : a < two64 -> 2 <= b -> b < two64 -> f_to_u64 (f_ceil (f_div (f_of_u64 a) (f_of_u64 b))) <= 9223372036854775808.
Proof.
  intros Ha H2 Hb. pose proof (rnd_u64_bounds a Ha) as [A0 A1].
  assert (B2 : (2 <= rnd (IZR (Z.of_N b)))%R). { rewrite <- (rnd_format 2). apply rnd_le. apply IZR_le. lia. apply (format_int 2). lia. }
  set (x := rnd (IZR (Z.of_N a))) in *. set (y := rnd (IZR (Z.of_N b))) in *.
  assert (Q0 : (0 <= x / y)%R). { apply Rmult_le_pos; auto. left. apply Rinv_0_lt_compat. lra. }
  assert (Q1 : (x / y <= bpow radix2 63)%R).
  { apply Rmult_le_reg_r with y; [lra|]. unfold Rdiv. rewrite Rmult_assoc, Rinv_l by lra. rewrite Rmult_1_r.
    apply Rle_trans with (1 := A1). change 64%Z with (63 + 1)%Z. rewrite bpow_plus. apply Rmult_le_compat_l. apply bpow_ge_0. change (bpow radix2 1) with 2%R. auto. }
  assert (D : fval (f_div (f_of_u64 a) (f_of_u64 b)) (rnd (x / y))).
  { apply fval_div; try (now apply fval_of_u64). lra. rewrite Rabs_pos_eq by auto. apply Rle_trans with (1 := Q1). apply bpow_le; lia. }
  assert (R0 : (0 <= rnd (x / y))%R). { rewrite <- rnd_0. now apply rnd_le. }
  assert (R1 : (rnd (x / y) <= bpow radix2 63)%R).
  { rewrite <- (rnd_format (bpow radix2 63)). now apply rnd_le. replace (bpow radix2 63) with (1 * bpow radix2 63)%R by ring. apply (format_spec 1); lia. }
  assert (C0 : (0 <= Zceil (rnd (x / y)))%Z). { apply le_IZR. apply Rle_trans with (1 := R0). apply Zceil_ub. }
  assert (C1 : (Zceil (rnd (x / y)) <= 2 ^ 63)%Z). { apply Zceil_glb. rewrite <- IZR_bpow by lia. exact R1. }
  assert (Z.of_N (f_to_u64 (f_ceil (f_div (f_of_u64 a) (f_of_u64 b)))) <= 2 ^ 63)%Z; [|lia].
  rewrite (fval_to_u64 _ _ (fval_ceil _ _ D)) by (apply IZR_le; lia). rewrite Zfloor_IZR. lia.
Qed.

(** Every created filter with a positive capacity has a bucket. *)
Lemma make_usable pr L cap fpp opt f : libm_ln2_sq L -> libm_ln_range L -> cap < two64 -> v2_make pr L cap fpp opt = Ok f -> v2_usable f.
Proof.
  intros H2 HL Hc E. apply v2_make_dims in E as D. apply v2_make_created in E as Cr. intro Z. rewrite (cr_capacity _ _ _ _ Cr) in Z.
  rewrite (cr_buckets _ _ _ _ Cr), len_repeatN.
  pose proof (n_bucket0_pos L cap fpp ltac:(lia) Hc) as P.
  destruct opt; try (destruct D as [-> _]; lia).
  destruct D as [D _]. apply next_pow2_pos in D; [tauto|]. right.
  pose proof (bucket_cap_ge L fpp H2 HL (cr_fpp_range _ _ _ _ Cr)). apply ceil_div_le; auto. lia. apply f_to_u64_lt.
Qed.
Lemma make_usable_any pr L cap fpp opt f : cap < two64 -> opt <> OSpeed \/ pr = Debug -> v2_make pr L cap fpp opt = Ok f -> v2_usable f.
Proof.
  intros Hc O E. apply v2_make_dims in E as D. apply v2_make_created in E as Cr. intro Z. rewrite (cr_capacity _ _ _ _ Cr) in Z.
  rewrite (cr_buckets _ _ _ _ Cr), len_repeatN.
  pose proof (n_bucket0_pos L cap fpp ltac:(lia) Hc) as P.
  destruct opt; try (destruct D as [-> _]; lia). destruct O as [O| ->]; [congruence|].
  destruct D as [D _]. apply next_pow2_pos in D; tauto.
Qed.
