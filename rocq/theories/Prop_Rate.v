(** False-positive rates promised by the sizes of filters, for hashes that spread entries evenly. *)
From Coq Require Import Lia Reals Lra List.
Import ListNotations.
From Verif Require Import M_V2 M_V1 M_RefLibm Spec_Bits Spec_Hash Spec_V1 Spec_V2 Spec_V2File Spec_V2Hist Spec_Libm Spec_Real P_Base P_Hash P_V1 P_V1Size P_V2 P_V2Make P_V2Size P_Geom.
From Flocq Require Import Core BinarySingleNaN.
From Verif Require Import P_Float P_FloatDiv P_Real P_RealLibm Prop_Size Spec_Rate P_Rate P_RateFilter P_RateFloat P_RateV1 P_RateV2 Ex_Base Prop_V1 Prop_V2.
Open Scope R_scope.

(** * C67 The requested rate *)
(** What is averaged: the answer of a filter without index cache is that of the positions of the query among the positions of the
    entries of its bucket; there are as many positions as hash functions and they lie below the number of bits of a bucket. *)
Theorem C67_v2_answer wy L f K C ks k : v2_kept wy L f K C -> (forall x, K x <-> In x ks) -> key_ok k -> v2_index_cache f = [] -> v2_capacity f <> 0%N -> len (v2_buckets f) <> 0%N ->
  let pos x := map N.to_nat (v2_positions wy f (hash_pop wy x)) in
  let same x := N.eqb (v2_bucket_of f (hash_pop wy k)) (v2_bucket_of f (hash_pop wy x)) in
  (v2_contains wy f k = Ok true <-> all_mem (pos k) (flat_map pos (filter same ks)) = true) /\
  (forall x, length (pos x) = N.to_nat (v2_n_hash_buck f) /\ Forall (fun i => (i < N.to_nat 32768)%nat) (pos x)).
Proof.
  intros H HK Kk Hc C0 B0 pos same. split.
  - rewrite (C03_v2_exact wy L f K C k H Kk). unfold all_mem. rewrite forallb_forall. split.
    + intros (_ & _ & A & _) i Hi. apply in_map_iff in Hi as (j & <- & Hj). apply mem_In. destruct (A j Hj) as (x & Kx & E & P). apply in_flat_map. exists x.
      split; [apply filter_In; split; [now apply HK|now apply N.eqb_eq]|now apply in_map].
    + intro A. split; [exact C0|]. split; [exact B0|]. split; [|now left]. intros j Hj. specialize (A (N.to_nat j) (in_map _ _ _ Hj)). apply mem_In, in_flat_map in A as (x & Fx & P).
      apply filter_In in Fx as [Ix Sx]. apply in_map_iff in P as (j' & E & P). apply Nnat.N2Nat.inj in E. subst j'. exists x. split; [now apply HK|]. split; [symmetry; now apply N.eqb_eq|exact P].
  - intro x. unfold pos, v2_positions. rewrite map_length, edh_positions_length. split; [reflexivity|]. apply Forall_forall. intros i Hi. apply in_map_iff in Hi as (j & <- & Hj).
    apply edh_positions_lt in Hj. lia.
Qed.
Print Assumptions C67_v2_answer.
Theorem C67_v1_answer L f K ks d : v1_kept L f K -> (forall x, K x <-> In x ks) -> v1_bit_size f <> 0%N ->
  let pos x := map N.to_nat (v1_positions f x) in
  (v1_contains_bytes f d = Ok true <-> all_mem (pos d) (flat_map pos ks) = true) /\
  (forall x, length (pos x) = N.to_nat (v1_n_hash f) /\ Forall (fun i => (i < N.to_nat (v1_bit_size f))%nat) (pos x)).
Proof.
  intros H HK B0 pos. split.
  - rewrite (C03_v1_exact L f K d H). unfold all_mem. rewrite forallb_forall. split.
    + intros (_ & A) i Hi. apply in_map_iff in Hi as (j & <- & Hj). apply mem_In. destruct (A j Hj) as (x & Kx & P). apply in_flat_map. exists x. split; [now apply HK|now apply in_map].
    + intro A. split; [exact B0|]. intros j Hj. specialize (A (N.to_nat j) (in_map _ _ _ Hj)). apply mem_In, in_flat_map in A as (x & Ix & P).
      apply in_map_iff in P as (j' & E & P). apply Nnat.N2Nat.inj in E. subst j'. exists x. split; [now apply HK|exact P].
  - intro x. unfold pos, v1_positions. rewrite map_length, dcso_positions_length. split; [reflexivity|]. apply Forall_forall. intros i Hi. apply in_map_iff in Hi as (j & <- & Hj).
    apply dcso_positions_lt in Hj; [lia|exact B0].
Qed.
Print Assumptions C67_v1_answer.

Lemma rl_from p e : fpp_in_range p = true -> (/ 2) ^ e <= sf_R (sf_of_bits p) -> rl p / ln 2 <= INR e.
Proof.
  intros Hp P. pose proof ln2_num. apply Rmult_le_reg_r with (ln 2); [lra|]. unfold Rdiv. rewrite Rmult_assoc, Rinv_l, Rmult_1_r by lra.
  rewrite (p_exp p Hp) in P. apply ln_le in P; [|apply pow_lt; lra]. rewrite ln_exp, ln_pow, ln_Rinv in P by lra. lra.
Qed.
Lemma make_buckets pr L cap p opt f : libm_ln2_sq L -> libm_ln_range L -> (1 <= cap)%N -> (cap < 9007199254740992)%N -> opt = ONone \/ opt = OSpace -> v2_make pr L cap p opt = Ok f ->
  (0 < length (v2_buckets f))%nat /\ (N.to_nat cap <= N.to_nat (v2_bucket_cap L p) * length (v2_buckets f))%nat /\ v2_n_hash_buck f = v2_n_hash0 L p /\ fpp_in_range p = true.
Proof.
  intros A B C1 C2 O E. pose proof (v2_make_dims _ _ _ _ _ _ E) as D. pose proof (v2_make_created _ _ _ _ _ _ E) as Cr. pose proof (cr_fpp_range _ _ _ _ Cr) as Hp.
  assert (D' : v2_n_buckets f = v2_n_bucket0 L cap p /\ v2_n_hash_buck f = v2_n_hash0 L p) by (destruct O; subst opt; tauto). destruct D' as [D1 D2].
  assert (Ln : length (v2_buckets f) = N.to_nat (v2_n_buckets f)) by (rewrite (cr_buckets _ _ _ _ Cr); apply repeat_length).
  pose proof (bucket_cap_ge L p A B Hp) as C19. pose proof (n_bucket0_exact L cap p A B Hp C2) as EB. rewrite Ln, D1, EB. set (c := v2_bucket_cap L p) in *.
  assert (X : (cap <= c * ((cap + c - 1) / c))%N). { pose proof (N.div_mod (cap + c - 1) c ltac:(lia)) as Q. pose proof (N.mod_lt (cap + c - 1) c ltac:(lia)) as M. lia. }
  split; [|split; [|split; [exact D2|exact Hp]]]; [|rewrite <- Nnat.N2Nat.inj_mul; lia].
  assert ((cap + c - 1) / c <> 0)%N; [intro Z; rewrite Z in X; lia|lia].
Qed.

(** Levels none and space: [n <= cap] entries spread at random over the buckets give a rate of at most 9/4 of the requested one. *)
Theorem C67_v2_rate pr L cap p opt f n : libm_accurate L -> libm_ln2_sq L -> libm_ln_range L -> (1 <= cap)%N -> (cap < 9007199254740992)%N -> opt = ONone \/ opt = OSpace ->
  v2_make pr L cap p opt = Ok f -> let P := sf_R (sf_of_bits p) in (/ 2) ^ 30 <= P -> (n <= N.to_nat cap)%nat ->
  ideal_filter_rate (length (v2_buckets f)) (N.to_nat 32768) (N.to_nat (v2_n_hash_buck f)) n <= 9 / 4 * P.
Proof.
  intros A B C C1 C2 O E P HP Hn. destruct (make_buckets _ _ _ _ _ _ B C C1 C2 O E) as (B0 & BC & -> & Hp).
  destruct (Rle_lt_dec P (/ 2)) as [H|H].
  - assert (H30 : rl p / ln 2 <= 30) by (pose proof (rl_from p 30 Hp HP) as Q; cbn [INR] in Q; lra). destruct (h_bounds p Hp H) as [_ [H1 _]].
    apply Rle_trans with (1 := v2_filter_ideal L p (length (v2_buckets f)) n A (proj1 B) Hp H ltac:(lra) B0 ltac:(lia)).
    rewrite Rmult_comm. apply Rmult_le_compat_r; [apply Rle_trans with (2 := HP); apply pow_le; lra|]. apply v2_correction. lra.
  - pose proof (filter_le_1 (length (v2_buckets f)) (N.to_nat 32768) (N.to_nat (v2_n_hash0 L p)) n B0 ltac:(lia)). lra.
Qed.
Print Assumptions C67_v2_rate.
(** Finer: with h = log2 (1/p), the factor is exp(3/(4h) + h^2/3000 + (h+1)^4/(80000h)); the first term comes from rounding the
    number of hash functions up, the last from the uneven load of the buckets. *)
Theorem C67_v2_rate_fine pr L cap p opt f n : libm_accurate L -> libm_ln2_sq L -> libm_ln_range L -> (1 <= cap)%N -> (cap < 9007199254740992)%N -> opt = ONone \/ opt = OSpace ->
  v2_make pr L cap p opt = Ok f -> let P := sf_R (sf_of_bits p) in let h := - ln P / ln 2 in (/ 2) ^ 46 <= P <= / 2 -> (n <= N.to_nat cap)%nat ->
  ideal_filter_rate (length (v2_buckets f)) (N.to_nat 32768) (N.to_nat (v2_n_hash_buck f)) n <= P * exp (3 / (4 * h) + h * h / 3000 + (h + 1) ^ 4 / (80000 * h)).
Proof.
  intros A B C C1 C2 O E P h [HP1 HP2] Hn. destruct (make_buckets _ _ _ _ _ _ B C C1 C2 O E) as (B0 & BC & -> & Hp).
  apply (v2_filter_ideal L p (length (v2_buckets f)) n A (proj1 B) Hp HP2); [|exact B0|lia]. pose proof (rl_from p 46 Hp HP1) as Q. cbn [INR] in Q. lra.
Qed.
Print Assumptions C67_v2_rate_fine.
(** One bucket with at most its share of the entries, any rate up to 1/2. *)
Theorem C67_v2_bucket pr L cap p opt f n : libm_accurate L -> libm_ln2_sq L -> libm_ln_range L -> (1 <= cap)%N -> (cap < 9007199254740992)%N -> opt = ONone \/ opt = OSpace ->
  v2_make pr L cap p opt = Ok f -> let P := sf_R (sf_of_bits p) in let h := - ln P / ln 2 in P <= / 2 -> (n * length (v2_buckets f) <= N.to_nat cap)%nat ->
  ideal_rate (N.to_nat 32768) (N.to_nat (v2_n_hash_buck f)) n <= P * exp (3 / (4 * h) + h * h / 3000).
Proof.
  intros A B C C1 C2 O E P h HP Hn. destruct (make_buckets _ _ _ _ _ _ B C C1 C2 O E) as (B0 & BC & -> & Hp).
  apply (v2_ideal L p n A (proj1 B) Hp HP). nia.
Qed.
Print Assumptions C67_v2_bucket.

Lemma v1_correction h n : 1 <= h <= 100 -> 1000 <= n -> exp (3 / (4 * h) + 7 * h / n) <= 9 / 4.
Proof.
  intros H Hn. apply Rle_trans with (exp (INR 8 * 0.095)).
  - apply exp_le. assert (Ih : 0 < / h) by (apply Rinv_0_lt_compat; lra).
    assert (In : 0 < / n <= / 1000) by (split; [apply Rinv_0_lt_compat; lra|apply Rinv_le_contravar; lra]).
    apply Rle_trans with ((3 / 4 + 7 / 1000 * (h * h)) * / h).
    + replace ((3 / 4 + 7 / 1000 * (h * h)) * / h) with (3 / (4 * h) + 7 * h * / 1000) by (field; lra). apply Rplus_le_compat_l. apply Rmult_le_compat_l; lra.
    + apply Rmult_le_reg_r with h; [lra|]. rewrite Rmult_assoc, Rinv_l, Rmult_1_r by lra. cbn [INR]. nra.
  - rewrite <- exp_pow. apply Rle_trans with ((/ 0.905) ^ 8); [|lra]. apply pow_incr. split; [apply Rlt_le, exp_pos|].
    replace 0.095 with (- - 0.095) by lra. rewrite exp_Ropp. apply Rinv_le_contravar; [lra|]. pose proof (exp_ge_1 (- 0.095)). lra.
Qed.
(** v1 filters of at least 1000 entries. *)
Lemma v1_made L cap p f : libm_accurate L -> (1000 <= cap)%N -> (cap < 9007199254740992)%N -> v1_with_capacity L cap p = Ok f ->
  (/ 2) ^ 100 <= sf_R (sf_of_bits p) <= / 2 -> fpp_in_range p = true /\ bu_bit_size L cap p <> u64_max /\ v1_bit_size f = bu_bit_size L cap p /\ v1_n_hash f = bu_k L (bu_bit_size L cap p) cap /\ 1 <= rl p / ln 2 <= 100.
Proof.
  intros A C1 C2 E [HP1 HP2]. unfold v1_with_capacity in E. destruct (fpp_in_range p) eqn:Hp; cbn [negb] in E; [|discriminate].
  assert (C2' : (cap < two64)%N) by (unfold two64; lia). destruct (h_bounds p Hp HP2) as [R0 [H1 _]].
  assert (H100 : rl p / ln 2 <= 100). { pose proof (rl_from p 100 Hp HP1) as Q. replace (INR 100) with 100 in Q by (rewrite INR_IZR_INZ; reflexivity). lra. }
  assert (M : bu_bit_size L cap p <> u64_max).
  { intro M. destruct (bit_size_real L cap p A Hp C2') as [Mu _]. rewrite M in Mu. change (IZR (Z.of_N u64_max)) with 18446744073709551615 in Mu. pose proof ln2_num as [Lo Hi]. pose proof eps_small as [Pe Se].
    assert (Cr : 0 <= IZR (Z.of_N cap) <= 9007199254740992) by (split; apply IZR_le; lia).
    assert (Il : 0 < / ln 2 <= 1.45) by (split; [apply Rinv_0_lt_compat; lra|]; apply Rmult_le_reg_r with (ln 2); [lra|]; rewrite Rinv_l by lra; lra).
    replace (IZR (Z.of_N cap) * rl p / s2) with (IZR (Z.of_N cap) * (rl p / ln 2) * / ln 2) in Mu by (unfold s2; field; lra).
    assert (T : IZR (Z.of_N cap) * (rl p / ln 2) * / ln 2 <= 9007199254740992 * 100 * 1.45). { apply Rmult_le_compat; [apply Rmult_le_pos; lra|lra| |lra]. apply Rmult_le_compat; lra. }
    assert (T' : IZR (Z.of_N cap) * (rl p / ln 2) * / ln 2 * (1 + 32 * eps) <= 9007199254740992 * 100 * 1.45 * 2) by (apply Rmult_le_compat; [apply Rmult_le_pos; [apply Rmult_le_pos; lra|lra]|lra|exact T|lra]). lra. }
  destruct (vec_of 8 0%N (v1_u64_size (bu_bit_size L cap p))) as [bits| |]; cbn [obind] in E; [|discriminate|discriminate]. injection E as <-. cbn [v1_bit_size v1_n_hash]. split; [reflexivity|]. split; [exact M|]. split; [reflexivity|]. split; [reflexivity|]. lra.
Qed.
Theorem C67_v1_rate L cap p f n : libm_accurate L -> libm_ln2 L -> (1000 <= cap)%N -> (cap < 9007199254740992)%N -> v1_with_capacity L cap p = Ok f ->
  let P := sf_R (sf_of_bits p) in (/ 2) ^ 100 <= P <= / 2 -> (n <= N.to_nat cap)%nat ->
  ideal_rate (N.to_nat (v1_bit_size f)) (N.to_nat (v1_n_hash f)) n <= 9 / 4 * P /\
  (let h := - ln P / ln 2 in ideal_rate (N.to_nat (v1_bit_size f)) (N.to_nat (v1_n_hash f)) n <= P * exp (3 / (4 * h) + 7 * h / IZR (Z.of_N cap))).
Proof.
  intros A B C1 C2 E P HP Hn. destruct (v1_made L cap p f A C1 C2 E HP) as (Hp & M & -> & -> & H1).
  pose proof (v1_ideal L cap p n A B Hp (proj2 HP) C1 ltac:(unfold two64; lia) M Hn) as Q. cbv zeta in Q. split; [|exact Q]. apply Rle_trans with (1 := Q). rewrite Rmult_comm.
  apply Rmult_le_compat_r; [apply Rle_trans with (2 := proj1 HP); apply pow_le; lra|]. apply v1_correction; [exact H1|]. apply IZR_le. lia.
Qed.
Print Assumptions C67_v1_rate.

Lemma one_minus_exp x b : 0 <= x -> (/ (1 + x / 8)) ^ 8 <= 1 - b -> b <= 1 - exp (- x).
Proof.
  intros X H. assert (exp (- x) <= (/ (1 + x / 8)) ^ 8); [|lra]. replace (- x) with (INR 8 * (- (x / 8))) by (cbn [INR]; field). rewrite <- exp_pow.
  apply pow_incr. split; [apply Rlt_le, exp_pos|]. rewrite exp_Ropp. apply Rinv_le_contravar; [lra|apply exp_ge_1].
Qed.
Lemma rate_ge m k n b c : (0 < m)%nat -> 0 <= b -> (/ (1 + IZR (Z.of_nat k) * IZR (Z.of_nat n) / IZR (Z.of_nat m) / 8)) ^ 8 <= 1 - b -> c < b ^ k ->
  c < ideal_rate m k n.
Proof.
  intros M B H C. apply Rlt_le_trans with (2 := formula_lower m k n M). apply Rlt_le_trans with (1 := C). unfold formula_rate. apply pow_incr. split; [exact B|].
  rewrite !INR_IZR_INZ. apply one_minus_exp; [|exact H]. apply Rmult_le_pos; [apply Rmult_le_pos; apply IZR_le; lia|]. apply Rlt_le, Rinv_0_lt_compat, IZR_lt. lia.
Qed.
(** The requested rate itself is exceeded by a full filter (here 31/64, with 21700 entries): two hash functions are used where 1.05 is the optimum. *)
Theorem C67_refuted : exists cap p f, (forall pr, v2_make pr ref_libm cap p ONone = Ok f) /\ sf_R (sf_of_bits p) = 31 / 64 /\ v2_n_hash_buck f = 2%N /\
  101 / 100 * (31 / 64) < ideal_filter_rate (length (v2_buckets f)) (N.to_nat 32768) (N.to_nat (v2_n_hash_buck f)) (N.to_nat cap).
Proof.
  exists 21700%N, 4602397344195936256%N, (mk 21700 4602397344195936256 ONone).
  assert (E : v2_n_hash_buck (mk 21700 4602397344195936256 ONone) = 2%N) by (vm_compute; reflexivity).
  split; [intros []; vm_compute; reflexivity|]. split; [|split; [exact E|]].
  - assert (S : sf_of_bits 4602397344195936256%N = S754_finite false 8725724278030336 (-54)) by (vm_compute; reflexivity). rewrite S. unfold sf_R, powerRZ. change (Pos.to_nat 54) with 54%nat. lra.
  - rewrite E. replace (length (v2_buckets (mk 21700 4602397344195936256 ONone))) with 1%nat by (vm_compute; reflexivity). rewrite filter_one.
    apply rate_ge with (b := 0.7); [lia|lra| |]; rewrite ?N_nat_Z; cbn [Z.of_N]; [|change (N.to_nat 2) with 2%nat; lra].
    lra.
Qed.
Print Assumptions C67_refuted.
(** A filter for 1000 entries at 1%, with a correctly rounded libm. *)
Example C67_example : exists f, v2_make Release real_libm 1000 p001 ONone = Ok f /\
  ideal_filter_rate (length (v2_buckets f)) (N.to_nat 32768) (N.to_nat (v2_n_hash_buck f)) 1000 <= 9 / 4 * sf_R (sf_of_bits p001).
Proof.
  destruct real_libm_meets_all as (A & B & _ & C). destruct (make_succeeds Release real_libm 1000 p001 ONone B C ltac:(vm_compute; reflexivity) ltac:(lia)) as [f E].
  exists f. split; [exact E|]. apply (C67_v2_rate Release real_libm 1000%N p001 ONone f 1000 A B C ltac:(lia) ltac:(lia) (or_introl eq_refl) E); [|lia].
  assert (S : sf_of_bits p001 = S754_finite false 5764607523034235 (-59)) by (vm_compute; reflexivity). rewrite S. unfold sf_R, powerRZ. change (Pos.to_nat 59) with 59%nat. lra.
Qed.
(** Small cases, by counting. *)
Example C67_ideal_example : ideal_rate 2 1 1 = 1 / 2 /\ ideal_rate 2 2 1 = 5 / 8 /\ ideal_filter_rate 2 2 1 1 = 1 / 4.
Proof. unfold ideal_filter_rate, ideal_rate, avg_seq, avg, sum_below, ind, all_mem, mem, count_in. cbn -[Rdiv Rplus Rmult]. split; [|split]; lra. Qed.

(** * C68 The requested rate with an index cache *)
(** Levels speed and best lower the number of hash functions in proportion to the rate of a Bloom filter with the size of the cache,
    although the cache holds one position per entry and the rate falls exponentially with that number. *)
Theorem C68_refuted : exists cap p f, (forall pr, v2_make pr ref_libm cap p OBest = Ok f) /\ sf_R (sf_of_bits p) = (/ 2) ^ 44 /\ length (v2_buckets f) = 1%nat /\ v2_n_hash_buck f = 18%N /\
  50 * (/ 2) ^ 44 < ideal_cached_rate (8 * length (v2_index_cache f)) (N.to_nat 32768) (N.to_nat (v2_n_hash_buck f)) (N.to_nat cap).
Proof.
  exists 516%N, 4409024035195715584%N, (mk 516 4409024035195715584 OBest).
  assert (E : v2_n_hash_buck (mk 516 4409024035195715584 OBest) = 18%N) by (vm_compute; reflexivity).
  split; [intros []; vm_compute; reflexivity|]. split; [|split; [vm_compute; reflexivity|split; [exact E|]]].
  - assert (S : sf_of_bits 4409024035195715584%N = S754_finite false 4503599627370496 (-96)) by (vm_compute; reflexivity). rewrite S. unfold sf_R, powerRZ. change (Pos.to_nat 96) with 96%nat. lra.
  - rewrite E. replace (8 * length (v2_index_cache (mk 516 4409024035195715584 OBest)))%nat with (N.to_nat 1024) by (vm_compute; reflexivity). rewrite cached_product by lia.
    assert (A : 0.38 < ideal_rate (N.to_nat 1024) 1 (N.to_nat 516)).
    { apply rate_ge with (b := 0.385); [lia|lra| |lra]. rewrite ?N_nat_Z. cbn [Z.of_N Z.of_nat Pos.of_succ_nat]. lra. }
    assert (B : 0.2425 ^ 18 < ideal_rate (N.to_nat 32768) (N.to_nat 18) (N.to_nat 516)).
    { apply rate_ge with (b := 0.2429); [lia|lra| |change (N.to_nat 18) with 18%nat; lra]. rewrite ?N_nat_Z. cbn [Z.of_N]. lra. }
    apply Rlt_trans with (0.38 * 0.2425 ^ 18); [lra|]. apply Rmult_le_0_lt_compat; [lra|apply pow_le; lra|exact A|exact B].
Qed.
Print Assumptions C68_refuted.
(** The same at a common rate, 2^-22 (one in four million), for level speed. *)
Theorem C68_speed_refuted : exists cap p f, (forall pr, v2_make pr ref_libm cap p OSpeed = Ok f) /\ sf_R (sf_of_bits p) = (/ 2) ^ 22 /\ length (v2_buckets f) = 1%nat /\ v2_n_hash_buck f = 9%N /\
  4 * (/ 2) ^ 22 < ideal_cached_rate (8 * length (v2_index_cache f)) (N.to_nat 32768) (N.to_nat (v2_n_hash_buck f)) (N.to_nat cap).
Proof.
  exists 1032%N, 4508103226997866496%N, (mk 1032 4508103226997866496 OSpeed).
  assert (E : v2_n_hash_buck (mk 1032 4508103226997866496 OSpeed) = 9%N) by (vm_compute; reflexivity).
  split; [intros []; vm_compute; reflexivity|]. split; [|split; [vm_compute; reflexivity|split; [exact E|]]].
  - assert (S : sf_of_bits 4508103226997866496%N = S754_finite false 4503599627370496 (-74)) by (vm_compute; reflexivity). rewrite S. unfold sf_R, powerRZ. change (Pos.to_nat 74) with 74%nat. lra.
  - rewrite E. replace (8 * length (v2_index_cache (mk 1032 4508103226997866496 OSpeed)))%nat with (N.to_nat 2048) by (vm_compute; reflexivity). rewrite cached_product by lia.
    assert (A : 0.38 < ideal_rate (N.to_nat 2048) 1 (N.to_nat 1032)).
    { apply rate_ge with (b := 0.385); [lia|lra| |lra]. rewrite ?N_nat_Z. cbn [Z.of_N Z.of_nat Pos.of_succ_nat]. lra. }
    assert (B : 0.2425 ^ 9 < ideal_rate (N.to_nat 32768) (N.to_nat 9) (N.to_nat 1032)).
    { apply rate_ge with (b := 0.2429); [lia|lra| |change (N.to_nat 9) with 9%nat; lra]. rewrite ?N_nat_Z. cbn [Z.of_N]. lra. }
    apply Rlt_trans with (0.38 * 0.2425 ^ 9); [lra|]. apply Rmult_le_0_lt_compat; [lra|apply pow_le; lra|exact A|exact B].
Qed.
Print Assumptions C68_speed_refuted.
