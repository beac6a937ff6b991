(** Number of hash functions and false-positive rate of v2 filters with an index cache (C77, C68). *)
From Coq Require Import Lia Reals Lra List.
Import ListNotations.
From Verif Require Import M_V2 M_RefLibm Spec_Bits Spec_Hash Spec_V2 Spec_V2File Spec_V2Hist Spec_Libm Spec_Real Spec_Exp P_Base P_Hash P_V2 P_V2Make P_V2Size P_Geom.
From Flocq Require Import Core BinarySingleNaN.
From Verif Require Import P_Float P_FloatDiv P_Real P_RealLibm Prop_Size Spec_Rate P_Rate P_RateFilter P_RateFloat P_RateV2 P_RateCached P_CachedHash Ex_Base Prop_V2 Prop_Rate.
Open Scope R_scope.

(** A correctly rounded library is accurate enough. *)
Lemma real_libm_exp : libm_exp_accurate real_libm.
Proof.
  assert (B : bpow radix2 (-900) <= / 100 /\ 1 <= bpow radix2 900).
  { split; [apply Rle_trans with (bpow radix2 (-7)); [apply bpow_le; lia|change (bpow radix2 (-7)) with (/ 128); lra]|change 1 with (bpow radix2 0); apply bpow_le; lia]. }
  split.
  - intros x F X. cbn [lm_exp real_libm]. assert (E : exp (- (2)) <= exp (sf_R x) <= exp 0) by (split; apply exp_le; lra). rewrite exp_0 in E.
    assert (L : / 100 <= exp (- (2))). { rewrite exp_Ropp. apply Rinv_le_contravar; [apply exp_pos|]. replace 2 with (1 + 1) by ring. rewrite exp_plus. pose proof e_bounds. nra. }
    apply sf_round_near; [apply exp_pos|lra|]. apply btw_refl; lra.
  - intros x k F X K. cbn [lm_powf real_libm].
    assert (FK : fval (f_of_u64 k) (INR (N.to_nat k))). { rewrite INR_N, <- (rnd_format (IZR (Z.of_N k))) by (apply format_int; lia). apply fval_of_u64. unfold two64. lia. }
    rewrite (fval_R _ _ FK), Rpower_pow by lra. assert (W : / 16 <= sf_R x ^ N.to_nat k <= 1) by (destruct K as [-> | ->]; [change (N.to_nat 1) with 1%nat|change (N.to_nat 2) with 2%nat]; cbn [pow]; nra).
    apply sf_round_near; [lra|lra|]. apply btw_refl; lra.
Qed.

(** The number of bits per entry of a bucket, and its rounding. *)
Lemma bits_per_entry L p : libm_accurate L -> fpp_in_range p = true -> sf_R (sf_of_bits p) <= / 2 -> let c := IZR (Z.of_N (v2_bucket_cap L p)) in
  exists z, fval (f_round (f_div (f_of_u64 bucket_bit_size) (f_of_u64 (v2_bucket_cap L p)))) (IZR z) /\ (1 <= z <= 1000000)%Z /\ IZR z - 0.5001 <= 32768 / c <= IZR z + 0.5001 /\
    15 <= c /\ 1.4 <= 32768 / c /\ rl p <= 0.4805 * (32768 / c).
Proof.
  intros HA Hp P c. destruct (h_bounds p Hp P) as [R0 [H1 H2]]. destruct (bucket_cap_real L p HA Hp R0) as [C15 [Cu _]]. fold c in Cu. pose proof ln2_bounds as LB.
  assert (ee : eps = / 9007199254740992) by reflexivity. assert (c15 : 15 <= c) by (apply IZR_le; lia). assert (LN : ln 2 <= rl p) by (apply Rmult_le_reg_r with (/ ln 2); [apply Rinv_0_lt_compat; lra|rewrite Rinv_r; lra]).
  assert (S2 : s2 * (1 + 32 * eps) <= 0.4805). { unfold s2. rewrite ee. assert (ln 2 * ln 2 <= 0.69315 * 0.69315) by (apply Rmult_le_compat; lra). lra. }
  assert (CR : c * rl p <= 32768 * 0.4805).
  { apply Rle_trans with (bopt p * (1 + 32 * eps) * rl p); [apply Rmult_le_compat_r; lra|]. unfold bopt. replace (32768 * s2 / rl p * (1 + 32 * eps) * rl p) with (32768 * (s2 * (1 + 32 * eps))) by (field; lra). lra. }
  assert (Bc : 32768 / c * c = 32768) by (field; lra). assert (Rb : rl p <= 0.4805 * (32768 / c)) by (apply Rmult_le_reg_r with c; lra).
  assert (B1 : 1.4 <= 32768 / c) by lra. assert (B2 : 32768 / c <= 3000) by (apply Rmult_le_reg_r with c; lra).
  assert (C64 : (v2_bucket_cap L p < two64)%N) by apply bucket_cap_lt.
  assert (Cs : (v2_bucket_cap L p <= 32768)%N). { assert (c <= 32768); [|apply le_IZR in H; lia]. assert (c * 1.4 <= 32768 / c * c) by (rewrite Rmult_comm; apply Rmult_le_compat_r; lra). lra. }
  set (B := 32768 / c) in *.
  assert (FD : fval (f_div (f_of_u64 bucket_bit_size) (f_of_u64 (v2_bucket_cap L p))) (rnd B)).
  { unfold B. replace 32768 with (rnd (IZR (Z.of_N bucket_bit_size))) by (apply rnd_format, format_int; cbn; lia).
    replace c with (rnd (IZR (Z.of_N (v2_bucket_cap L p)))) by (apply rnd_format, format_int; lia). apply fval_div; [now apply fval_of_u64|now apply fval_of_u64| |].
    - rewrite rnd_format by (apply format_int; lia). fold c. lra.
    - rewrite !rnd_format by (apply format_int; cbn; lia). fold c. change (IZR (Z.of_N bucket_bit_size)) with 32768. fold B. rewrite Rabs_pos_eq by lra.
      apply Rle_trans with (bpow radix2 12); [change (bpow radix2 12) with 4096; lra|apply bpow_le; lia]. }
  pose proof (btw_rnd B ltac:(apply small_bpow; lra)) as Bt. unfold btw in Bt. rewrite ee in Bt. set (x := rnd B) in *. assert (X : B - / 100000 <= x <= B + / 100000) by lra.
  exists (Zfloor (x + / 2)). split; [apply fval_round; [exact FD|lra]|]. pose proof (Zfloor_lb (x + / 2)) as A1. pose proof (Zfloor_ub (x + / 2)) as A2. set (z := Zfloor (x + / 2)) in *.
  split; [|lra]. split; [apply Z.lt_pred_le, lt_IZR; cbn; lra|apply le_IZR; lra].
Qed.

Lemma make_cached pr L cap p opt f : opt = OSpeed \/ opt = OBest -> v2_make pr L cap p opt = Ok f ->
  exists c, next_power_of_two pr cap = Ok c /\ v2_n_hash_buck f = v2_cached_n_hash L cap c (f_round (f_div (f_of_u64 bucket_bit_size) (f_of_u64 (v2_bucket_cap L p)))).
Proof.
  intros O E. unfold v2_make in E. destruct (fpp_in_range p); cbn [negb] in E; [|discriminate]. fold (v2_bucket_cap L p) in E.
  destruct O as [-> | ->]; destruct (next_power_of_two pr cap) as [c| |]; cbn [obind] in E; try discriminate.
  - destruct (next_power_of_two pr (f_to_u64 _)) as [n| |]; cbn [obind] in E; try discriminate.
    destruct (bs_with_bit_capacity c); cbn [obind] in E; try discriminate. destruct (vec_of _ _ _); cbn [obind] in E; try discriminate. injection E as <-. cbn [v2_n_hash_buck]. eauto.
  - destruct (bs_with_bit_capacity c); cbn [obind] in E; try discriminate. destruct (vec_of _ _ _); cbn [obind] in E; try discriminate. injection E as <-. cbn [v2_n_hash_buck]. eauto.
Qed.
Lemma cached_hash pr L cap p opt f : libm_accurate L -> libm_ln2 L -> libm_exp_accurate L -> (1 <= cap)%N -> (cap < 9007199254740992)%N -> opt = OSpeed \/ opt = OBest ->
  v2_make pr L cap p opt = Ok f -> sf_R (sf_of_bits p) <= / 2 -> let B := 32768 / IZR (Z.of_N (v2_bucket_cap L p)) in
  exists z, (1 <= v2_n_hash_buck f)%N /\ 0.2768 * IZR z <= IZR (Z.of_N (v2_n_hash_buck f)) <= 0.4386 * IZR z + 1 /\ IZR z - 0.5001 <= B <= IZR z + 0.5001 /\
    15 <= IZR (Z.of_N (v2_bucket_cap L p)) /\ 1.4 <= B /\ rl p <= 0.4805 * B.
Proof.
  intros HA H2 HE C1 C2 O E P B. pose proof (cr_fpp_range _ _ _ _ (v2_make_created _ _ _ _ _ _ E)) as Hp. destruct (make_cached _ _ _ _ _ _ O E) as (m & Em & ->).
  destruct (next_pow2_val pr cap ltac:(lia)) as (j & _ & Ej & J1 & J2). rewrite Ej in Em. apply Ok_inj in Em. subst m. specialize (J2 C1).
  assert (J3 : (2 ^ j <= 9007199254740992)%N). { change 9007199254740992%N with (2 ^ 53)%N in *. apply N.pow_le_mono_r; [lia|]. apply N.lt_succ_r, N.nle_gt. intro Q. assert (2 ^ 54 <= 2 ^ j)%N by (apply N.pow_le_mono_r; lia). change (2 ^ 54)%N with (2 * 2 ^ 53)%N in H. lia. }
  destruct (bits_per_entry L p HA Hp P) as (z & FB & Z1 & BB & C15 & B14 & RB). exists z.
  destruct (cached_hash_real L cap (2 ^ j)%N _ z H2 HE C1 C2 J1 J2 J3 FB Z1) as [K1 K2]. split; [exact K1|]. split; [exact K2|]. split; [exact BB|]. split; [exact C15|]. split; [exact B14|exact RB].
Qed.

(** * C77 The number of hash functions with an index cache *)
(** With [B] bits per entry the optimum is [B ln 2], about [0.693 B]. Levels speed and best use about 0.277 B to 0.439 B: between 40%
    and 63% of the optimum, up to rounding, and at least one. *)
Theorem C77_hash_functions pr L cap p opt f : libm_accurate L -> libm_ln2 L -> libm_exp_accurate L -> (1 <= cap)%N -> (cap < 9007199254740992)%N -> opt = OSpeed \/ opt = OBest ->
  v2_make pr L cap p opt = Ok f -> sf_R (sf_of_bits p) <= / 2 -> let B := 32768 / IZR (Z.of_N (v2_bucket_cap L p)) in let k := IZR (Z.of_N (v2_n_hash_buck f)) in
  (1 <= v2_n_hash_buck f)%N /\ 0.2768 * B - 0.14 <= k <= 0.4386 * B + 1.22.
Proof.
  intros HA H2 HE C1 C2 O E P B k. destruct (cached_hash pr L cap p opt f HA H2 HE C1 C2 O E P) as (z & K1 & K2 & K3 & _). split; [exact K1|]. fold B k in K2, K3. lra.
Qed.
Print Assumptions C77_hash_functions.
(** Above 1/2 there may be no hash function at all: a filter for 1000 entries at 0.9 and level best, with 4.6 times more entries than
    bits in a bucket, accepts every entry that passes the cache. *)
Theorem C77_refuted : exists f, (forall pr, v2_make pr ref_libm 1000 4606281698874543309 OBest = Ok f) /\ v2_n_hash_buck f = 0%N /\ sf_R (sf_of_bits 4606281698874543309) < 0.9001.
Proof.
  exists (mk 1000 4606281698874543309 OBest). split; [intros []; vm_compute; reflexivity|]. split; [vm_compute; reflexivity|].
  assert (S : sf_of_bits 4606281698874543309%N = S754_finite false 8106479329266893 (-53)) by (vm_compute; reflexivity). rewrite S. unfold sf_R, powerRZ. change (Pos.to_nat 53) with 53%nat. lra.
Qed.
Print Assumptions C77_refuted.

(** * C68 A rate that holds with an index cache *)
(** A filter with a cache accepts no more than its buckets alone do. *)
Theorem C68_answer wy L f K C ks k : v2_kept wy L f K C -> (forall x, K x <-> In x ks) -> key_ok k -> v2_contains wy f k = Ok true ->
  let pos x := map N.to_nat (v2_positions wy f (hash_pop wy x)) in
  let same x := N.eqb (v2_bucket_of f (hash_pop wy k)) (v2_bucket_of f (hash_pop wy x)) in
  all_mem (pos k) (flat_map pos (filter same ks)) = true.
Proof.
  intros H HK Kk E pos same. apply (C03_v2_exact wy L f K C k H Kk) in E as (_ & _ & A & _). unfold all_mem. rewrite forallb_forall.
  intros i Hi. apply in_map_iff in Hi as (j & <- & Hj). apply mem_In. destruct (A j Hj) as (x & Kx & E & P). apply in_flat_map. exists x.
  split; [apply filter_In; split; [now apply HK|now apply N.eqb_eq]|now apply in_map].
Qed.
Print Assumptions C68_answer.

Lemma cached_buckets pr L cap p opt f : libm_ln2_sq L -> libm_ln_range L -> (1 <= cap)%N -> (cap < 9007199254740992)%N -> opt = OSpeed \/ opt = OBest -> v2_make pr L cap p opt = Ok f ->
  (0 < length (v2_buckets f))%nat /\ (N.to_nat cap <= N.to_nat (v2_bucket_cap L p) * length (v2_buckets f))%nat.
Proof.
  intros A B C1 C2 O E. pose proof (v2_make_dims _ _ _ _ _ _ E) as D. pose proof (v2_make_created _ _ _ _ _ _ E) as Cr. pose proof (cr_fpp_range _ _ _ _ Cr) as Hp.
  assert (Ln : length (v2_buckets f) = N.to_nat (v2_n_buckets f)) by (rewrite (cr_buckets _ _ _ _ Cr); apply repeat_length).
  pose proof (bucket_cap_ge L p A B Hp) as C19. pose proof (n_bucket0_exact L cap p A B Hp C2) as EB. set (c := v2_bucket_cap L p) in *.
  assert (X : (cap <= c * v2_n_bucket0 L cap p)%N). { rewrite EB. pose proof (N.div_mod (cap + c - 1) c ltac:(lia)) as Q. pose proof (N.mod_lt (cap + c - 1) c ltac:(lia)) as M. lia. }
  assert (G : (v2_n_bucket0 L cap p <= v2_n_buckets f)%N).
  { destruct O; subst opt; [|destruct D as [-> _]; lia]. destruct D as [D _]. assert (v2_n_bucket0 L cap p <= 9223372036854775808)%N by (rewrite EB; apply N.div_le_upper_bound; lia).
    now apply (next_pow2_pos _ _ _ D (or_intror H)). }
  assert (Y : (cap <= c * v2_n_buckets f)%N) by nia. rewrite Ln. split; [|rewrite <- Nnat.N2Nat.inj_mul; lia]. assert (v2_n_buckets f <> 0)%N; [intro Z; rewrite Z in Y; lia|lia].
Qed.

(** Full statement: the rate is at most p. Proved: the buckets alone, and so the filter by C68_answer, have a rate of at most
    p^(3/4), for p between 2^-30 and 1/2 and any [n <= cap] entries spread at random. Missing: p itself, which C68_refuted and
    C68_speed_refuted exclude. *)
Theorem C68_rate_partial pr L cap p opt f n : libm_accurate L -> libm_ln2_sq L -> libm_ln_range L -> libm_exp_accurate L -> (1 <= cap)%N -> (cap < 9007199254740992)%N ->
  opt = OSpeed \/ opt = OBest -> v2_make pr L cap p opt = Ok f -> let P := sf_R (sf_of_bits p) in (/ 2) ^ 30 <= P <= / 2 -> (n <= N.to_nat cap)%nat ->
  ideal_filter_rate (length (v2_buckets f)) (N.to_nat 32768) (N.to_nat (v2_n_hash_buck f)) n <= Rpower P (3 / 4).
Proof.
  intros HA B C HE C1 C2 O E P [P1 P2] Hn. pose proof (cr_fpp_range _ _ _ _ (v2_make_created _ _ _ _ _ _ E)) as Hp.
  destruct (cached_buckets _ _ _ _ _ _ B C C1 C2 O E) as [B0 BC]. destruct (cached_hash pr L cap p opt f HA (proj1 B) HE C1 C2 O E P2) as (z & K1 & K2 & K3 & C15 & B14 & RB).
  assert (H30 : rl p / ln 2 <= 30) by (pose proof (rl_from p 30 Hp P1) as Q; cbn [INR] in Q; lra). pose proof (v2_x_tight L p HA Hp P2 ltac:(lra)) as XT. pose proof ln2_num as LN.
  set (c := IZR (Z.of_N (v2_bucket_cap L p))) in *.
  assert (B43 : 32768 / c <= 43.4). { replace (32768 * ln 2 / c) with (32768 / c * ln 2) in XT by (field; lra). apply Rmult_le_reg_r with (ln 2); lra. }
  replace (Rpower P (3 / 4)) with (exp (- (3 / 4 * rl p))) by (unfold Rpower, rl; fold P; f_equal; ring).
  apply (cached_filter (length (v2_buckets f)) n c z); try (rewrite ?INR_N; lra || lia).
  assert (b0 : 0 < INR (length (v2_buckets f))) by (apply lt_0_INR; lia). apply Rmult_le_reg_r with (INR (length (v2_buckets f))); [exact b0|]. unfold Rdiv. rewrite Rmult_assoc, Rinv_l, Rmult_1_r by lra.
  unfold c. rewrite <- INR_N, <- mult_INR. apply le_INR. lia.
Qed.
Print Assumptions C68_rate_partial.
(** A filter for 1000 entries at 1% and level best, with a correctly rounded libm. *)
Example C68_example : exists f, v2_make Release real_libm 1000 p001 OBest = Ok f /\
  ideal_filter_rate (length (v2_buckets f)) (N.to_nat 32768) (N.to_nat (v2_n_hash_buck f)) 1000 <= Rpower (sf_R (sf_of_bits p001)) (3 / 4) /\
  0.2768 * (32768 / IZR (Z.of_N (v2_bucket_cap real_libm p001))) - 0.14 <= IZR (Z.of_N (v2_n_hash_buck f)).
Proof.
  destruct real_libm_meets_all as (A & B & _ & C). pose proof real_libm_exp as D. destruct (make_succeeds Release real_libm 1000 p001 OBest B C ltac:(vm_compute; reflexivity) ltac:(lia)) as [f E].
  assert (P : (/ 2) ^ 30 <= sf_R (sf_of_bits p001) <= / 2). { assert (S : sf_of_bits p001 = S754_finite false 5764607523034235 (-59)) by (vm_compute; reflexivity). rewrite S. unfold sf_R, powerRZ. change (Pos.to_nat 59) with 59%nat. lra. }
  exists f. split; [exact E|]. split.
  - apply (C68_rate_partial Release real_libm 1000%N p001 OBest f 1000 A B C D ltac:(lia) ltac:(lia) (or_intror eq_refl) E P). lia.
  - apply (C77_hash_functions Release real_libm 1000%N p001 OBest f A (proj1 B) D ltac:(lia) ltac:(lia) (or_intror eq_refl) E (proj2 P)).
Qed.
(** The reference library: 5 hash functions for 1000 entries at 1%, where 7 are used without cache. *)
Example C77_example : v2_n_hash_buck (mk 1000 p001 OBest) = 5%N /\ v2_n_hash_buck (mk 1000 p001 ONone) = 7%N.
Proof. split; vm_compute; reflexivity. Qed.
