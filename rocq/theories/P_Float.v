(** Real values of the binary64 computations, through Flocq's BinarySingleNaN (whose operations compute what the
    standard library's SpecFloat computes). Everything in this file depends on the standard real number axioms. *)
From Coq Require Import Reals Lia Lra.
From Verif Require Import M_BitSet P_Base.
From Flocq Require Import Core BinarySingleNaN Operations Ulp Relative.
Open Scope R_scope.

Lemma Hprec : Prec_gt_0 53. Proof. reflexivity. Qed.
Lemma Hmax : Prec_lt_emax 53 1024. Proof. reflexivity. Qed.
#[export] Existing Instance Hprec.
#[export] Existing Instance Hmax.
Notation fx := (SpecFloat.fexp 53 1024).
Notation bf64 := (binary_float 53 1024).
Definition rnd (x : R) : R := round radix2 fx ZnearestE x.
Definition format (x : R) : Prop := generic_format radix2 fx x.
#[export] Instance fx_valid : Valid_exp fx := FLT_exp_valid (3 - 1024 - 53) 53.
#[export] Instance fx_mono : Monotone_exp fx := FLT_exp_monotone (3 - 1024 - 53) 53.

(** ** SpecFloat and Flocq compute the same floats (the proofs of Flocq's PrimFloat.v, without primitive floats) *)
Lemma round_nearest_even_equiv s m l : round_nearest_even m l = choice_mode mode_NE s m l.
Proof. destruct l as [|[]]; try reflexivity. cbn. unfold Round.cond_incr. now destruct (Z.even m). Qed.
Lemma binary_round_aux_equiv sx mx ex lx :
  SpecFloat.binary_round_aux 53 1024 sx mx ex lx = binary_round_aux 53 1024 mode_NE sx mx ex lx.
Proof.
  unfold SpecFloat.binary_round_aux, binary_round_aux.
  set (m := shr_fexp _ _ _ _ _). destruct m as [mrs' e']. cbn. now rewrite (round_nearest_even_equiv sx).
Qed.
Lemma binary_round_equiv s m e : SpecFloat.binary_round 53 1024 s m e = binary_round 53 1024 mode_NE s m e.
Proof.
  unfold SpecFloat.binary_round, binary_round, shl_align_fexp.
  set (mez := shl_align _ _ _); destruct mez. apply binary_round_aux_equiv.
Qed.
Lemma binary_normalize_equiv m e z :
  SpecFloat.binary_normalize 53 1024 m e z = B2SF (binary_normalize 53 1024 _ _ mode_NE m e z).
Proof. destruct m; cbn; auto; rewrite B2SF_SF2B; apply binary_round_equiv. Qed.
Lemma mul_equiv (x y : bf64) : f_mul (B2SF x) (B2SF y) = B2SF (Bmult mode_NE x y).
Proof.
  destruct x, y; try reflexivity; try (cbn; now destruct (Bool.eqb _ _)).
  cbn. rewrite B2SF_SF2B. apply binary_round_aux_equiv.
Qed.
Lemma div_equiv (x y : bf64) : f_div (B2SF x) (B2SF y) = B2SF (Bdiv mode_NE x y).
Proof.
  destruct x, y; try reflexivity; try (cbn; now destruct (Bool.eqb _ _)).
  cbn. rewrite B2SF_SF2B. set (mm := SFdiv_core_binary _ _ _ _ _ _). destruct mm as [[mz ez] lz]. apply binary_round_aux_equiv.
Qed.
Lemma sub_equiv (x y : bf64) : f_sub (B2SF x) (B2SF y) = B2SF (Bminus mode_NE x y).
Proof.
  destruct x, y; try reflexivity; try (cbn; now destruct (Bool.eqb _ _)).
  cbn. unfold Zminus. rewrite <- cond_Zopp_negb. apply binary_normalize_equiv.
Qed.

(** ** finite floats and their values *)
Definition fval (s : spec_float) (r : R) : Prop :=
  exists b : bf64, B2SF b = s /\ is_finite b = true /\ B2R b = r.

Lemma rnd_small x : Rabs x <= bpow radix2 1023 -> Rlt_bool (Rabs (rnd x)) (bpow radix2 1024) = true.
Proof.
  intro H. apply Rlt_bool_true. apply Rle_lt_trans with (bpow radix2 1023).
  - unfold rnd. apply abs_round_le_generic; auto with typeclass_instances.
    apply generic_format_bpow. cbn. lia.
  - apply bpow_lt. lia.
Qed.
Lemma IZR_bpow n : (0 <= n)%Z -> bpow radix2 n = IZR (2 ^ n).
Proof. intro H. rewrite <- IZR_Zpower by auto. reflexivity. Qed.
Lemma fval_normalize z s : (Z.abs z <= 2 ^ 1000)%Z -> fval (SpecFloat.binary_normalize 53 1024 z 0 s) (rnd (IZR z)).
Proof.
  intro H. eexists. split; [symmetry; apply binary_normalize_equiv|].
  pose proof (binary_normalize_correct 53 1024 _ _ mode_NE z 0 s) as C. cbv zeta in C.
  replace (F2R (Float radix2 z 0)) with (IZR z) in C by (unfold F2R; cbn; ring).
  change (round radix2 fx (round_mode mode_NE) (IZR z)) with (rnd (IZR z)) in C.
  rewrite rnd_small in C.
  - destruct C as (A & B & _). auto.
  - rewrite <- abs_IZR. apply Rle_trans with (bpow radix2 1000). rewrite IZR_bpow by lia. now apply IZR_le. apply bpow_le. lia.
Qed.
Lemma fval_of_u64 x : (x < two64)%N -> fval (f_of_u64 x) (rnd (IZR (Z.of_N x))).
Proof. intro H. apply fval_normalize. unfold two64 in H. assert (Z.abs (Z.of_N x) <= 2 ^ 64)%Z by lia.
  eapply Z.le_trans; eauto. apply Z.pow_le_mono_r; lia.
Qed.
Lemma fval_div a b x y : fval a x -> fval b y -> y <> 0 -> Rabs (x / y) <= bpow radix2 1023 -> fval (f_div a b) (rnd (x / y)).
Proof.
  intros (p & <- & Fp & <-) (q & <- & Fq & <-) Hy Hb. eexists. split; [symmetry; apply div_equiv|].
  pose proof (Bdiv_correct 53 1024 _ _ mode_NE p q Hy) as C.
  change (round radix2 fx (round_mode mode_NE) (B2R p / B2R q)) with (rnd (B2R p / B2R q)) in C.
  rewrite rnd_small in C by auto. destruct C as (A & B & _). rewrite B. auto.
Qed.
Lemma fval_mul a b x y : fval a x -> fval b y -> Rabs (x * y) <= bpow radix2 1023 -> fval (f_mul a b) (rnd (x * y)).
Proof.
  intros (p & <- & Fp & <-) (q & <- & Fq & <-) Hb. eexists. split; [symmetry; apply mul_equiv|].
  pose proof (Bmult_correct 53 1024 _ _ mode_NE p q) as C.
  change (round radix2 fx (round_mode mode_NE) (B2R p * B2R q)) with (rnd (B2R p * B2R q)) in C.
  rewrite rnd_small in C by auto. destruct C as (A & B & _). rewrite B, Fp, Fq. auto.
Qed.
Lemma fval_sub a b x y : fval a x -> fval b y -> Rabs (x - y) <= bpow radix2 1023 -> fval (f_sub a b) (rnd (x - y)).
Proof.
  intros (p & <- & Fp & <-) (q & <- & Fq & <-) Hb. eexists. split; [symmetry; apply sub_equiv|].
  pose proof (Bminus_correct 53 1024 _ _ mode_NE p q Fp Fq) as C.
  change (round radix2 fx (round_mode mode_NE) (B2R p - B2R q)) with (rnd (B2R p - B2R q)) in C.
  rewrite rnd_small in C by auto. destruct C as (A & B & _). auto.
Qed.
Lemma fval_opp a x : fval a x -> fval (f_opp a) (- x).
Proof.
  intros (p & <- & Fp & <-). exists (Bopp p). rewrite is_finite_Bopp, B2R_Bopp. split; auto. now destruct p.
Qed.
Lemma fval_abs a x : fval a x -> fval (f_abs a) (Rabs x).
Proof.
  intros (p & <- & Fp & <-). exists (Babs p). rewrite is_finite_Babs, B2R_Babs. split; auto. now destruct p.
Qed.
Lemma fval_format a x : fval a x -> format x.
Proof. intros (p & _ & _ & <-). apply generic_format_B2R. Qed.
Lemma fval_fun a x y : fval a x -> fval a y -> x = y.
Proof.
  intros (p & E & _ & <-) (q & E' & _ & <-). rewrite <- (SF2R_B2SF _ _ p), <- (SF2R_B2SF _ _ q). congruence.
Qed.
Lemma rnd_format x : format x -> rnd x = x.
Proof. intro. apply round_generic; auto with typeclass_instances. Qed.
Lemma format_rnd x : format (rnd x).
Proof. apply generic_format_round; auto with typeclass_instances. Qed.
Lemma rnd_le x y : x <= y -> rnd x <= rnd y.
Proof. apply round_le; auto with typeclass_instances. Qed.
Lemma rnd_0 : rnd 0 = 0.
Proof. apply round_0; auto with typeclass_instances. Qed.

(** Representability. *)
Lemma format_spec m e : (Z.abs m < 2 ^ 53)%Z -> (-1074 <= e)%Z -> format (IZR m * bpow radix2 e).
Proof.
  intros Hm He. apply (generic_format_FLT radix2 (-1074) 53).
  apply FLT_spec with (Float radix2 m e); auto.
Qed.
Lemma format_inv x : format x -> exists m e, x = IZR m * bpow radix2 e /\ (Z.abs m < 2 ^ 53)%Z /\ (-1074 <= e)%Z.
Proof.
  intro H. apply (FLT_format_generic radix2 (-1074) 53) in H. destruct H as [[m e] H1 H2 H3]. exists m, e. auto.
Qed.
Lemma format_int z : (Z.abs z <= 2 ^ 53)%Z -> format (IZR z).
Proof.
  intro H. destruct (Z.eq_dec (Z.abs z) (2 ^ 53)).
  - replace (IZR z) with (IZR (Z.sgn z) * bpow radix2 53).
    + apply format_spec; lia.
    + change (bpow radix2 53) with (IZR (2 ^ 53)). rewrite <- mult_IZR. f_equal. lia.
  - replace (IZR z) with (IZR z * bpow radix2 0) by (cbn; ring). apply format_spec; lia.
Qed.
Lemma format_scale x k : format x -> (0 <= k)%Z -> format (x * bpow radix2 k).
Proof.
  intros H Hk. apply format_inv in H as (m & e & -> & Hm & He).
  rewrite Rmult_assoc, <- bpow_plus. apply format_spec; lia.
Qed.

(** ** f64::ceil and the cast to u64 *)
Lemma Zceil_div m p : Zceil (IZR m * bpow radix2 (Zneg p)) = (- (- m / 2 ^ Zpos p))%Z.
Proof.
  assert (E : - (IZR m * bpow radix2 (Zneg p)) = IZR (- m) / IZR (2 ^ Zpos p)).
  { rewrite opp_IZR. change (bpow radix2 (Zneg p)) with (/ IZR (2 ^ Zpos p)). unfold Rdiv. ring. }
  unfold Zceil. rewrite E, Zfloor_div; auto. apply Z.pow_nonzero; lia.
Qed.
Lemma fval_finite s m e H : fval (S754_finite s m e) (B2R (B754_finite s m e H : bf64)).
Proof. exists (B754_finite s m e H). auto. Qed.
Lemma bounded_mantissa m e : SpecFloat.bounded 53 1024 m e = true -> (Zpos m < 2 ^ 53)%Z.
Proof.
  intro H. unfold SpecFloat.bounded in H. apply andb_prop in H as [H _]. unfold SpecFloat.canonical_mantissa in H.
  apply Zeq_bool_eq in H.
  pose proof (Digits.Zpos_digits2_pos m) as D.
  rewrite D in H.
  unfold SpecFloat.fexp, SpecFloat.emin in H.
  assert (H0 : (Digits.Zdigits radix2 (Zpos m) <= 53)%Z) by lia.
  apply (Digits.Zpower_gt_Zdigits radix2 53 (Zpos m)). exact H0.
Qed.
Lemma fval_ceil a x : fval a x -> fval (f_ceil a) (IZR (Zceil x)).
Proof.
  intros (p & <- & Fp & <-). destruct p as [s|s| |s m e Hb]; try discriminate.
  - exists (B754_zero s). split; [reflexivity|]. split; auto. cbn. rewrite Zceil_IZR. reflexivity.
  - cbn [B2SF f_ceil B2R]. destruct e as [|e|e].
    + exists (B754_finite s m 0 Hb). split; auto. split; auto. cbn. unfold F2R. cbn. rewrite Rmult_1_r. now rewrite Zceil_IZR.
    + exists (B754_finite s m (Zpos e) Hb). split; auto. split; auto. cbn [B2R]. unfold F2R. cbn [Fnum Fexp].
      rewrite IZR_bpow by lia. rewrite <- mult_IZR. now rewrite Zceil_IZR.
    + pose proof (bounded_mantissa _ _ Hb) as Bm.
      set (z := if s then _ else _).
      assert (Ez : z = Zceil (F2R (Float radix2 (cond_Zopp s (Zpos m)) (Zneg e)))).
      { unfold F2R. cbn [Fnum Fexp]. rewrite Zceil_div. subst z. destruct s; reflexivity. }
      assert (Bz : (Z.abs z <= 2 ^ 53)%Z).
      { subst z. assert (1 <= 2 ^ Zpos e)%Z by (apply (Z.pow_le_mono_r 2 0); lia).
        destruct s.
        - assert (0 <= Zpos m / 2 ^ Zpos e <= Zpos m)%Z. { split. apply Z.div_pos; lia. apply Z.div_le_upper_bound; nia. } lia.
        - assert (Zneg m <= Zneg m / 2 ^ Zpos e <= 0)%Z. { split. apply Z.div_le_lower_bound; nia. apply Z.div_le_upper_bound; lia. } lia. }
      rewrite <- Ez. rewrite <- (rnd_format (IZR z)) by now apply format_int.
      apply fval_normalize. eapply Z.le_trans; [exact Bz|]. apply Z.pow_le_mono_r; lia.
Qed.
Lemma fval_to_u64 a x : fval a x -> 0 <= x -> Z.of_N (f_to_u64 a) = Z.min (2 ^ 64 - 1) (Zfloor x).
Proof.
  intros (p & <- & Fp & <-) Hx. destruct p as [s|s| |s m e Hb]; try discriminate.
  - cbn. now rewrite Zfloor_IZR.
  - destruct s.
    { exfalso. cbn [B2R] in Hx. unfold F2R in Hx. cbn [Fnum Fexp cond_Zopp] in Hx.
      assert (IZR (Zneg m) < 0) by (apply IZR_lt; lia). pose proof (bpow_gt_0 radix2 e). change (- Zpos m)%Z with (Zneg m) in Hx. nra. }
    cbn [B2SF f_to_u64 B2R]. unfold F2R. cbn [Fnum Fexp cond_Zopp].
    change (Z.of_N u64_max) with (2 ^ 64 - 1)%Z. destruct e as [|e|e].
    + rewrite Rmult_1_r, Zfloor_IZR. rewrite N2Z.inj_min. reflexivity.
    + rewrite IZR_bpow by lia. rewrite <- mult_IZR, Zfloor_IZR. destruct (Z.leb_spec 64 (Zpos e)).
      * change (Z.of_N u64_max) with (2 ^ 64 - 1)%Z. symmetry. apply Z.min_l.
        assert (2 ^ 64 <= 2 ^ Zpos e)%Z by (apply Z.pow_le_mono_r; lia). nia.
      * rewrite N2Z.inj_min, N.shiftl_mul_pow2, N2Z.inj_mul, N2Z.inj_pow. reflexivity.
    + rewrite N2Z.inj_min, N.shiftr_div_pow2, N2Z.inj_div, N2Z.inj_pow. cbn [Z.of_N].
      f_equal. rewrite <- (Zfloor_div (Zpos m)) by (apply Z.pow_nonzero; lia). f_equal.
Qed.

(** ** byte_cap_from_bit_cap *)
Definition r8 (x : N) : Z := Zceil (rnd (IZR (Z.of_N x)) / 8).
Lemma fval_8 : fval (f_of_u64 8) 8.
Proof. replace 8 with (rnd (IZR (Z.of_N 8))). apply fval_of_u64. reflexivity. apply rnd_format. apply format_int. lia. Qed.
Lemma rnd_u64_bounds x : (x < two64)%N -> 0 <= rnd (IZR (Z.of_N x)) <= bpow radix2 64.
Proof.
  intro H. split.
  - rewrite <- rnd_0. apply rnd_le. apply IZR_le. lia.
  - rewrite <- (rnd_format (bpow radix2 64)). apply rnd_le. rewrite IZR_bpow by lia. apply IZR_le. unfold two64 in H. lia.
    replace (bpow radix2 64) with (1 * bpow radix2 64) by ring. apply (format_spec 1); lia.
Qed.
Lemma div8_format x : format x -> Rabs x = 0 \/ 1 <= Rabs x -> format (x / 8).
Proof.
  intros H Hx. destruct Hx as [Z|Hx].
  { assert (x = 0) as ->. { destruct (Req_dec x 0); auto. apply Rabs_no_R0 in H0. contradiction. }
    unfold Rdiv. rewrite Rmult_0_l. apply generic_format_0. }
  replace (x / 8) with (x * bpow radix2 (-3)) by (cbn; lra).
  apply format_inv in H as (m & e & -> & Hm & He).
  rewrite Rmult_assoc, <- bpow_plus. apply format_spec; auto.
  enough (-54 <= e)%Z by lia. destruct (Z_lt_le_dec e (-54)); auto. exfalso.
  assert (Rabs (IZR m * bpow radix2 e) < 1); [|lra].
  rewrite Rabs_mult, <- abs_IZR, (Rabs_pos_eq (bpow radix2 e)) by apply bpow_ge_0.
  assert (IZR (Z.abs m) < bpow radix2 53) by (rewrite IZR_bpow by lia; now apply IZR_lt).
  assert (bpow radix2 e <= bpow radix2 (-55)) by (apply bpow_le; lia).
  apply Rle_lt_trans with (bpow radix2 53 * bpow radix2 (-55)).
  - apply Rmult_le_compat; try lra. apply IZR_le; lia. apply bpow_ge_0.
  - rewrite <- bpow_plus. change 1 with (bpow radix2 0). apply bpow_lt. lia.
Qed.
Lemma rnd_int_cases z : (0 <= z)%Z -> Rabs (rnd (IZR z)) = 0 \/ 1 <= Rabs (rnd (IZR z)).
Proof.
  intro H. destruct (Z.eq_dec z 0) as [->|]. left. rewrite rnd_0. apply Rabs_R0.
  right. assert (1 <= rnd (IZR z)). { rewrite <- (rnd_format 1). apply rnd_le. apply IZR_le. lia. apply format_int. lia. }
  rewrite Rabs_pos_eq; lra.
Qed.
Lemma byte_cap_r8 x : (x < two64)%N -> Z.of_N (byte_cap_from_bit_cap x) = r8 x.
Proof.
  intro H. unfold byte_cap_from_bit_cap, r8. pose proof (rnd_u64_bounds x H) as B.
  assert (D : fval (f_div (f_of_u64 x) (f_of_u64 8)) (rnd (IZR (Z.of_N x)) / 8)).
  { rewrite <- (rnd_format (rnd (IZR (Z.of_N x)) / 8)).
    - apply fval_div; [apply fval_of_u64; auto|apply fval_8|lra|].
      rewrite Rabs_pos_eq by lra. apply Rle_trans with (bpow radix2 64); [pose proof (bpow_gt_0 radix2 64); lra|apply bpow_le; lia].
    - apply div8_format. apply format_rnd. apply rnd_int_cases. lia. }
  assert (0 <= Zceil (rnd (IZR (Z.of_N x)) / 8) <= 2 ^ 61)%Z.
  { split. rewrite <- (Zceil_IZR 0). apply Zceil_le. lra. apply Zceil_glb. change (IZR (2 ^ 61)) with (bpow radix2 61).
    replace (bpow radix2 64) with (bpow radix2 61 * 8) in B by (change 8 with (bpow radix2 3); rewrite <- bpow_plus; reflexivity). lra. }
  rewrite (fval_to_u64 _ _ (fval_ceil _ _ D)).
  - rewrite Zfloor_IZR. apply Z.min_r. lia.
  - apply IZR_le. lia.
Qed.
(** Asking again for the size it gave is stable, for every u64. *)
Lemma byte_cap_idem x : (x < two64)%N -> (8 * byte_cap_from_bit_cap x < two64)%N ->
  byte_cap_from_bit_cap (8 * byte_cap_from_bit_cap x) = byte_cap_from_bit_cap x.
Proof.
  intros H H8. apply N2Z.inj. rewrite byte_cap_r8 by auto. unfold r8.
  rewrite N2Z.inj_mul, byte_cap_r8 by auto. set (m := r8 x). change (Z.of_N 8) with 8%Z.
  rewrite rnd_format.
  - rewrite mult_IZR. replace (8 * IZR m / 8) with (IZR m) by lra. apply Zceil_IZR.
  - rewrite mult_IZR, Rmult_comm. change (IZR 8) with (bpow radix2 3). apply format_scale; [|lia].
    assert (D : fval (f_div (f_of_u64 x) (f_of_u64 8)) (rnd (IZR (Z.of_N x)) / 8)).
    { pose proof (rnd_u64_bounds x H) as B. rewrite <- (rnd_format (rnd (IZR (Z.of_N x)) / 8)).
      - apply fval_div; [apply fval_of_u64; auto|apply fval_8|lra|].
        rewrite Rabs_pos_eq by lra. apply Rle_trans with (bpow radix2 64); [pose proof (bpow_gt_0 radix2 64); lra|apply bpow_le; lia].
      - apply div8_format. apply format_rnd. apply rnd_int_cases. lia. }
    apply fval_ceil in D. eapply fval_format; eauto.
Qed.
(** Exact below 2^53. *)
Lemma byte_cap_exact x : (x <= 9007199254740992)%N -> byte_cap_from_bit_cap x = ((x + 7) / 8)%N.
Proof.
  intro H. apply N2Z.inj. rewrite byte_cap_r8 by (unfold two64; lia). unfold r8.
  rewrite rnd_format by (apply format_int; lia).
  rewrite N2Z.inj_div, N2Z.inj_add. change (Z.of_N 8) with 8%Z. change (Z.of_N 7) with 7%Z.
  unfold Zceil. replace (- (IZR (Z.of_N x) / 8)) with (IZR (- Z.of_N x) / 8) by (rewrite opp_IZR; lra).
  rewrite Zfloor_div by lia. 
  pose proof (Z.div_mod (Z.of_N x + 7) 8). pose proof (Z.mod_pos_bound (Z.of_N x + 7) 8).
  pose proof (Z.div_mod (- Z.of_N x) 8). pose proof (Z.mod_pos_bound (- Z.of_N x) 8). lia.
Qed.
