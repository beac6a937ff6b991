(** C90 C91: the false-positive rate and the recomputed count of almost every filter, not only on average (v1.rs:166-203,
    329-334, v2.rs:291-351, 574-587, utils.rs:4-40). *)
From Coq Require Import Lia Reals Lra List.
Import ListNotations.
From Verif Require Import M_V2 M_V1 M_RefLibm Spec_Bits Spec_Hash Spec_V1 Spec_V2 Spec_V2File Spec_V2Hist Spec_Libm Spec_Real Spec_Count P_Base P_Hash P_V1 P_V1Size P_V1Codec P_V1More P_V2 P_V2Make P_V2Size P_Geom.
From Flocq Require Import Core BinarySingleNaN.
From Verif Require Import P_Float P_FloatDiv P_Real P_RealLibm Prop_Size Spec_Rate Spec_CountAvg Spec_Tail P_Rate P_RateFilter P_RateFloat P_RateV1 P_RateV2 P_Count P_CountAvg P_Tail Ex_Base Ex_V1 Prop_V1 Prop_V2 Prop_Rate Prop_Count Prop_CountAvg.
Open Scope R_scope.

(** * C90 The rate of almost every filter *)
(** What is counted for a filter of several buckets: the answer of the model is that of the positions of the query among those
    of the entries of its bucket. *)
Theorem C90_v2_answer wy L f K C ks k : v2_kept wy L f K C -> (forall x, K x <-> In x ks) -> key_ok k -> v2_index_cache f = [] -> v2_capacity f <> 0%N -> len (v2_buckets f) <> 0%N ->
  let pos x := map N.to_nat (v2_positions wy f (hash_pop wy x)) in let buck x := N.to_nat (v2_bucket_of f (hash_pop wy x)) in
  v2_contains wy f k = Ok true <-> all_mem (pos k) (bucket_positions (buck k) (map (fun x => (buck x, pos x)) ks)) = true.
Proof.
  intros V HK Hk I0 C0 B0 pos buck. destruct (C67_v2_answer wy L f K C ks k V HK Hk I0 C0 B0) as [A _]. cbv zeta in A. rewrite A.
  assert (E : bucket_positions (buck k) (map (fun x => (buck x, pos x)) ks) = flat_map pos (filter (fun x => N.eqb (v2_bucket_of f (hash_pop wy k)) (v2_bucket_of f (hash_pop wy x))) ks)).
  { clear. unfold bucket_positions. induction ks as [|x ks IH]; [reflexivity|]. cbn [map filter fst].
    assert (Q : Nat.eqb (buck k) (buck x) = N.eqb (v2_bucket_of f (hash_pop wy k)) (v2_bucket_of f (hash_pop wy x))).
    { unfold buck. destruct (N.eqb_spec (v2_bucket_of f (hash_pop wy k)) (v2_bucket_of f (hash_pop wy x))) as [->|Ne]; [apply Nat.eqb_refl|]. apply Nat.eqb_neq. intro Q. apply Ne. now apply N2Nat.inj. }
    rewrite Q. destruct (N.eqb _ _); [|exact IH]. cbn [flat_map snd]. now rewrite IH. }
  rewrite E. reflexivity.
Qed.
Print Assumptions C90_v2_answer.

(** v1: whatever the positions of at most as many entries as the filter was made for, in all but a fraction [exp (- (d^2 m / 2))] of the cases
    the rate is no more than [exp (2 K d)] above the bound that C67 gives for its average. *)
Theorem C90_v1 L cap p f n d : libm_accurate L -> libm_ln2 L -> (1000 <= cap)%N -> (cap < 9007199254740992)%N -> v1_with_capacity L cap p = Ok f ->
  let P := sf_R (sf_of_bits p) in let m := N.to_nat (v1_bit_size f) in let K := N.to_nat (v1_n_hash f) in (/ 2) ^ 100 <= P <= / 2 -> (n <= N.to_nat cap)%nat -> 0 <= d ->
  bad_rate_fraction m K n (9 / 4 * P * exp (2 * INR K * d)) <= exp (- (d * d * INR m / 2)).
Proof.
  intros A B C1 C2 E P m K HP Hn D. destruct (v1_made L cap p f A C1 C2 E HP) as (Hp & M & Em & Ek & H1). unfold m, K. rewrite Em, Ek.
  destruct (v1_design L cap p A B Hp (proj2 HP) C1 ltac:(unfold two64; lia) M) as (m1 & _ & X). cbv zeta in X. set (mm := N.to_nat (bu_bit_size L cap p)) in *. set (kk := N.to_nat (bu_k L _ cap)) in *.
  apply bad_rate with (c := N.to_nat cap) (d := d); [lia|exact Hn|lia|exact D|]. rewrite exp_plus. apply Rmult_le_compat_r; [left; apply exp_pos|].
  assert (Q : 0 <= 2 * (INR kk * INR kk) / INR mm) by (pose proof (pos_INR kk); apply Rmult_le_pos; [nra|apply inv_nonneg]).
  apply Rle_trans with (exp (- rl p + (3 / (4 * (rl p / ln 2)) + 7 * (rl p / ln 2) / IZR (Z.of_N cap)))); [apply exp_le; lra|].
  rewrite exp_plus, <- p_exp by exact Hp. fold P. rewrite Rmult_comm. apply Rmult_le_compat_r; [apply Rle_trans with (2 := proj1 HP); apply pow_le; lra|].
  apply v1_correction; [exact H1|apply IZR_le; lia].
Qed.
Print Assumptions C90_v1.
Lemma exp_two_sevenths : exp (2 / 7) <= 4 / 3.
Proof.
  replace (2 / 7) with (INR 32 * (1 / 112)) by (rewrite INR_IZR_INZ; cbn [Z.of_nat Pos.of_succ_nat Pos.succ]; lra). rewrite <- exp_pow. apply Rle_trans with ((112 / 111) ^ 32); [|lra]. apply pow_incr. split; [left; apply exp_pos|].
  replace (1 / 112) with (- - (1 / 112)) by lra. rewrite exp_Ropp. replace (112 / 111) with (/ (111 / 112)) by lra. apply Rinv_le_contravar; [lra|]. pose proof (exp_ge_1 (- (1 / 112))). lra.
Qed.
(** In particular three times the requested rate. *)
Theorem C90_v1_three L cap p f n : libm_accurate L -> libm_ln2 L -> (1000 <= cap)%N -> (cap < 9007199254740992)%N -> v1_with_capacity L cap p = Ok f ->
  let P := sf_R (sf_of_bits p) in let m := N.to_nat (v1_bit_size f) in let K := N.to_nat (v1_n_hash f) in (/ 2) ^ 100 <= P <= / 2 -> (n <= N.to_nat cap)%nat ->
  bad_rate_fraction m K n (3 * P) <= exp (- (IZR (Z.of_N cap) / (140 * INR K))).
Proof.
  intros A B C1 C2 E P m K HP Hn. destruct (v1_made L cap p f A C1 C2 E HP) as (Hp & M & Em & Ek & H1).
  destruct (v1_design L cap p A B Hp (proj2 HP) C1 ltac:(unfold two64; lia) M) as (m1 & X & _). cbv zeta in X. rewrite <- Ek, <- Em in X. rewrite <- Em in m1. fold m in X, m1. fold K in X. rewrite INR_N in X.
  assert (K1 : 1 <= INR K). { change 1 with (INR 1). apply le_INR. unfold K. rewrite Ek. pose proof (bu_k_pos_any L (bu_bit_size L cap p) cap B) as Q. assert (bu_bit_size L cap p < two64)%N by apply f_to_u64_lt. unfold m in m1. rewrite Em in m1. unfold two64 in *. specialize (Q ltac:(lia) ltac:(lia) ltac:(lia)). lia. }
  set (d := / (7 * INR K)). assert (D : 0 < d) by (apply Rinv_0_lt_compat; lra).
  assert (P0 : 0 <= P) by (apply Rle_trans with (2 := proj1 HP); apply pow_le; lra).
  apply Rle_trans with (bad_rate_fraction m K n (9 / 4 * P * exp (2 * INR K * d))).
  - unfold bad_rate_fraction. apply seq_le; [constructor|]. intros l _ _. apply above_le; [unfold above; destruct Rlt_dec; lra|]. intro H. unfold above. destruct Rlt_dec as [|Q]; [lra|]. exfalso. apply Rnot_lt_le in Q.
    replace (2 * INR K * d) with (2 / 7) in Q by (unfold d; field; lra). pose proof exp_two_sevenths as E7. nra.
  - apply Rle_trans with (1 := C90_v1 L cap p f n d A B C1 C2 E HP Hn ltac:(lra)). apply exp_le, Ropp_le_contravar. fold m.
    replace (IZR (Z.of_N cap) / (140 * INR K)) with (d * d / 2 * (7 / 10 * INR K * IZR (Z.of_N cap))) by (unfold d; field; lra). replace (d * d * INR m / 2) with (d * d / 2 * INR m) by field. apply Rmult_le_compat_l; [nra|exact X].
Qed.
Print Assumptions C90_v1_three.

(** v2, one bucket that holds at most its share of the entries. *)
Theorem C90_v2_bucket pr L cap p opt f n d : libm_accurate L -> libm_ln2_sq L -> libm_ln_range L -> (1 <= cap)%N -> (cap < 9007199254740992)%N -> opt = ONone \/ opt = OSpace ->
  v2_make pr L cap p opt = Ok f -> let P := sf_R (sf_of_bits p) in let h := - ln P / ln 2 in let K := N.to_nat (v2_n_hash_buck f) in P <= / 2 -> (n * length (v2_buckets f) <= N.to_nat cap)%nat -> 0 <= d ->
  bad_rate_fraction (N.to_nat 32768) K n (P * exp (3 / (4 * h) + h * h / 3000) * exp (2 * INR K * d)) <= exp (- (16384 * (d * d))).
Proof.
  intros A B C C1 C2 O E P h K HP Hn D. destruct (make_buckets _ _ _ _ _ _ B C C1 C2 O E) as (B0 & BC & Ek & Hp). unfold K. rewrite Ek.
  destruct (v2_design L p A (proj1 B) Hp HP) as [C0 X]. cbv zeta in X. set (kk := N.to_nat (v2_n_hash0 L p)) in *.
  replace (16384 * (d * d)) with (d * d * INR (N.to_nat 32768) / 2) by (rewrite INR_N; change (IZR (Z.of_N 32768)) with 32768; field).
  apply bad_rate with (c := N.to_nat (v2_bucket_cap L p)) (d := d); [lia|nia|exact C0|exact D|]. rewrite exp_plus. apply Rmult_le_compat_r; [left; apply exp_pos|].
  assert (Q : 0 <= 2 * (INR kk * INR kk) / INR (N.to_nat 32768)) by (pose proof (pos_INR kk); apply Rmult_le_pos; [nra|apply inv_nonneg]).
  unfold P at 1. rewrite (p_exp p Hp) at 1. rewrite <- exp_plus. apply exp_le. unfold h, P. fold (rl p). lra.
Qed.
Print Assumptions C90_v2_bucket.

(** v2, the whole filter: the rate of a filter of [b] buckets is the average of its buckets', and rarely [t] above the bound of its average. *)
Theorem C90_v2_filter pr L cap p opt f n t : libm_accurate L -> libm_ln2_sq L -> libm_ln_range L -> (1 <= cap)%N -> (cap < 9007199254740992)%N -> opt = ONone \/ opt = OSpace ->
  v2_make pr L cap p opt = Ok f -> let P := sf_R (sf_of_bits p) in let K := N.to_nat (v2_n_hash_buck f) in let b := length (v2_buckets f) in (/ 2) ^ 30 <= P <= / 2 -> (n <= N.to_nat cap)%nat ->
  0 <= t <= INR K / 6 ->
  bad_filter_fraction b (N.to_nat 32768) K n (9 / 4 * P + t) <= exp (- (20000 * (t * t) * INR b / INR K ^ 3)).
Proof.
  intros A B C C1 C2 O E P K b HP Hn [T T6]. destruct (make_buckets _ _ _ _ _ _ B C C1 C2 O E) as (B0 & BC & Ek & Hp). fold b in B0, BC.
  pose proof (C67_v2_rate pr L cap p opt f n A B C C1 C2 O E (proj1 HP) Hn) as R. fold P b K in R.
  destruct (h_bounds p Hp (proj2 HP)) as [R0 HB]. destruct (v2_sizing L p A (proj1 B) Hp R0) as [C15 [Cu KK]]. cbv zeta in C15, Cu, KK. pose proof ln2_num as [Lo Hi]. pose proof eps_small as [Pe Se].
  assert (ek : INR K = IZR (Z.of_N (v2_n_hash0 L p))) by (unfold K; now rewrite Ek, INR_N). rewrite <- ek in KK. clear ek.
  set (c := IZR (Z.of_N (v2_bucket_cap L p))) in *. set (k := INR K) in *. set (x := 32768 * ln 2 / c) in *.
  assert (xc : x * c = 32768 * ln 2) by (unfold x; field; lra).
  assert (e : 32 * eps <= / 10000). { assert (Eq : eps = / 9007199254740992) by reflexivity. rewrite Eq. lra. }
  assert (ch : c <= 32768 * 0.6932 * (1 + / 10000)).
  { unfold s2 in Cu. apply Rmult_le_reg_r with (ln 2); [lra|]. apply Rle_trans with (c * rl p).
    - apply Rmult_le_compat_l; [lra|]. destruct HB as [HB _]. apply Rmult_le_reg_r with (/ ln 2); [apply Rinv_0_lt_compat; lra|]. rewrite Rinv_r by lra. exact HB.
    - apply Rle_trans with (1 := Cu). replace (32768 * (ln 2 * ln 2) * (1 + 32 * eps)) with (ln 2 * (32768 * (1 + 32 * eps)) * ln 2) by ring. apply Rmult_le_compat_r; [lra|]. nra. }
  assert (kc1 : k * c <= 32768 * (3 / 2)).
  { apply Rle_trans with ((1 + x * (1 + 11 * eps)) * c); [apply Rmult_le_compat_r; lra|]. replace ((1 + x * (1 + 11 * eps)) * c) with (c + x * c * (1 + 11 * eps)) by ring. rewrite xc. nra. }
  assert (kc2 : 32768 * (67 / 100) <= k * c).
  { apply Rle_trans with (x * (1 - 11 * eps) * c); [|apply Rmult_le_compat_r; lra]. replace (x * (1 - 11 * eps) * c) with (x * c * (1 - 11 * eps)) by ring. rewrite xc. nra. }
  assert (K1 : 1 <= k).
  { unfold k. change 1 with (INR 1). apply le_INR. pose proof (make_n_hash pr L cap p opt f (proj1 B) E O). unfold K. lia. }
  assert (b1 : 1 <= INR b) by (change 1 with (INR 1); apply le_INR; lia).
  set (cc := (N.to_nat (v2_bucket_cap L p) * b)%nat) in *. assert (ec : INR cc = c * INR b) by (unfold cc; now rewrite mult_INR, INR_N).
  assert (e32 : INR (N.to_nat 32768) = 32768) by (rewrite INR_N; reflexivity).
  assert (C0 : (0 < N.to_nat (v2_bucket_cap L p))%nat). { apply INR_lt. rewrite INR_N. cbn [INR]. fold c. lra. }
  pose proof (bad_filter b (N.to_nat 32768) K n cc t (9 / 4 * P + t) B0 ltac:(lia) ltac:(apply INR_le; cbn [INR]; fold k; lra) ltac:(unfold cc; lia) ltac:(unfold cc; nia)) as Q. cbv zeta in Q. rewrite e32, ec in Q. fold k in Q.
  assert (T4 : 4 * t <= c * INR b * (k * k / (32768 * INR b))).
  { replace (c * INR b * (k * k / (32768 * INR b))) with (k * c / 32768 * k) by (field; lra). apply Rle_trans with (67 / 100 * k); [lra|]. apply Rmult_le_compat_r; lra. }
  specialize (Q T T4 ltac:(lra)). apply Rle_trans with (1 := Q). apply exp_le, Ropp_le_contravar.
  replace (t * t / (c * INR b * (k * k / (32768 * INR b) * (k * k / (32768 * INR b))))) with (t * t * INR b / k ^ 3 * (32768 * 32768 * / (k * c))) by (field; lra).
  replace (20000 * (t * t) * INR b / k ^ 3) with (t * t * INR b / k ^ 3 * 20000) by (unfold Rdiv; ring).
  assert (K3 : 0 < k ^ 3) by (apply pow_lt; lra).
  apply Rmult_le_compat_l; [apply Rmult_le_pos; [nra|left; now apply Rinv_0_lt_compat]|].
  apply Rmult_le_reg_r with (k * c); [nra|]. replace (32768 * 32768 * / (k * c) * (k * c)) with (32768 * 32768) by (field; split; nra). nra.
Qed.
Print Assumptions C90_v2_filter.
(** The average of the rate so counted is that of C67. *)
Theorem C90_v2_average b m k n : (0 < b)%nat -> (0 < m)%nat -> avg_entries b m k n [] (filter_rate b m k) = ideal_filter_rate b m k n.
Proof. apply filter_rate_average. Qed.
Print Assumptions C90_v2_average.

Lemma p001_R : (/ 2) ^ 30 <= sf_R (sf_of_bits p001) <= / 2.
Proof. assert (S : sf_of_bits p001 = S754_finite false 5764607523034235 (-59)) by (vm_compute; reflexivity). rewrite S. unfold sf_R, powerRZ. change (Pos.to_nat 59) with 59%nat. lra. Qed.
(** Filters for a million entries at 1%: v1, and v2 with a margin of a tenth. *)
Example C90_v1_example : exists f, v1_with_capacity real_libm 1000000 p001 = Ok f /\
  bad_rate_fraction (N.to_nat (v1_bit_size f)) (N.to_nat (v1_n_hash f)) (N.to_nat 1000000) (3 * sf_R (sf_of_bits p001)) <= exp (- (1000000 / (140 * INR (N.to_nat (v1_n_hash f))))).
Proof.
  destruct real_libm_meets_all as (A & B & _ & C). destruct (v1_make_total real_libm 1000000 p001 ltac:(vm_compute; reflexivity)) as [f E]. exists f. split; [exact E|]. pose proof p001_R as P.
  apply (C90_v1_three real_libm 1000000%N p001 f (N.to_nat 1000000) A (proj1 B) ltac:(lia) ltac:(lia) E); [|lia]. split; [|apply P]. apply Rle_trans with (2 := proj1 P). lra.
Qed.
Example C90_v2_example : exists f, v2_make Release real_libm 1000000 p001 ONone = Ok f /\
  bad_filter_fraction (length (v2_buckets f)) (N.to_nat 32768) (N.to_nat (v2_n_hash_buck f)) (N.to_nat 1000000) (9 / 4 * sf_R (sf_of_bits p001) + / 10) <=
  exp (- (20000 * (/ 10 * / 10) * INR (length (v2_buckets f)) / INR (N.to_nat (v2_n_hash_buck f)) ^ 3)).
Proof.
  destruct real_libm_meets_all as (A & B & _ & C). destruct (make_succeeds Release real_libm 1000000 p001 ONone B C ltac:(vm_compute; reflexivity) ltac:(lia)) as [f E].
  exists f. split; [exact E|]. apply (C90_v2_filter Release real_libm 1000000%N p001 ONone f (N.to_nat 1000000) (/ 10) A B C ltac:(lia) ltac:(lia) (or_introl eq_refl) E p001_R); [lia|].
  split; [lra|]. pose proof (make_n_hash Release real_libm 1000000 p001 ONone f (proj1 B) E (or_introl eq_refl)) as K. assert (K1 : 1 <= INR (N.to_nat (v2_n_hash_buck f))) by (change 1 with (INR 1); apply le_INR; lia). lra.
Qed.
(** Counted by hand: two entries in two buckets of two bits, one position each; one query in two is reported unless both entries have the same position (then one in four). *)
Example C90_count_example : bad_filter_fraction 2 2 1 2 (1 / 4) = 3 / 4 /\ bad_rate_fraction 2 1 2 (1 / 2) = 1 / 2.
Proof.
  unfold bad_filter_fraction, bad_rate_fraction, avg_entries, filter_rate, bucket_positions, avg_seq, avg, sum_below, ind, all_mem, mem, above. cbn -[Rdiv Rplus Rmult Rlt_dec].
  split; repeat (match goal with |- context [Rlt_dec ?a ?b] => destruct (Rlt_dec a b); try (exfalso; lra) end); lra.
Qed.

(** * C91 The count of almost every filter *)
(** Version 1: with [n] entries that set at most three quarters of the bits, the estimate is within [(5/2 d + 1) / k + 1.01] of [n] in all but a fraction of the cases. *)
Theorem C91_v1 L m k n d : libm_accurate L -> (64 <= N.of_nat m <= 2 ^ 40)%N -> (1 <= N.of_nat k <= 2 ^ 53)%N -> (4 * (k * n) <= 3 * m)%nat -> 0 <= d -> 20 * d <= INR m ->
  bad_count_fraction m k n (fun x => IZR (Z.of_N (estimate_count L (N.of_nat m) (N.of_nat x) (N.of_nat k)))) ((5 / 2 * d + 1) / INR k + (1 + / 100)) <= exp (- (d * d / (2 * INR m))) + exp (- (d * d / (4 * INR m))).
Proof.
  intros HL Hm Hk H4 D D20. apply bad_count; [lia|lia|exact H4|exact D|exact D20|]. intros x Hx. rewrite est_ideal. pose proof (est_v1_R L (N.of_nat m) (N.of_nat x) (N.of_nat k) HL ltac:(change (2 ^ 40)%N with 1099511627776%N in Hm; lia) ltac:(lia) Hk). lra.
Qed.
Print Assumptions C91_v1.
(** Version 2, one bucket. *)
Theorem C91_v2_bucket L k n d : libm_accurate L -> (1 <= N.of_nat k <= 2 ^ 53)%N -> (N.of_nat (k * n) <= 24576)%N -> 0 <= d <= 1638 ->
  bad_count_fraction (N.to_nat 32768) k n (fun x => IZR (Z.of_N (estimate_count L 32768 (N.of_nat x) (N.of_nat k)))) ((5 / 2 * d + 1) / INR k + (1 + / 500000)) <= exp (- (d * d / 65536)) + exp (- (d * d / 131072)).
Proof.
  intros HL Hk H4 D. assert (E : INR (N.to_nat 32768) = 32768) by (rewrite INR_N; reflexivity).
  replace (d * d / 65536) with (d * d / (2 * INR (N.to_nat 32768))) by (rewrite E; f_equal; f_equal; lra). replace (d * d / 131072) with (d * d / (4 * INR (N.to_nat 32768))) by (rewrite E; f_equal; f_equal; lra).
  apply bad_count; [lia|lia|lia|lra|lra|]. intros x Hx. rewrite est_ideal. replace (N.of_nat (N.to_nat 32768)) with 32768%N by lia. pose proof (est_bucket_R L (N.of_nat x) (N.of_nat k) HL ltac:(lia) Hk). lra.
Qed.
Print Assumptions C91_v2_bucket.
(** A bucket of 3418 entries with 7 hash functions: the count is within 537 in all but 1% of the cases. *)
Example C91_v2_example : bad_count_fraction (N.to_nat 32768) 7 3418 (fun x => IZR (Z.of_N (estimate_count real_libm 32768 (N.of_nat x) 7))) 537 <= exp (- (1500 * 1500 / 65536)) + exp (- (1500 * 1500 / 131072)).
Proof.
  pose proof (C91_v2_bucket real_libm 7 3418 1500 real_libm_accurate ltac:(lia) ltac:(lia) ltac:(lra)) as H. apply Rle_trans with (2 := H). change (N.of_nat 7) with 7%N.
  unfold bad_count_fraction. apply seq_le; [constructor|]. intros l _ _. apply above_le; [unfold above; destruct Rlt_dec; lra|]. intro G. unfold above. destruct Rlt_dec as [|Q]; [lra|]. exfalso. apply Rnot_lt_le in Q. assert (E7 : INR 7 = 7) by (cbn; lra). rewrite E7 in Q. lra.
Qed.
