(** C92 C93: the false-positive rate of v2 filters when the hashes, not the positions, are ideal (v2.rs:92-121, hash.rs:52-63). *)
From Coq Require Import Lia Reals Lra List.
Import ListNotations.
From Verif Require Import M_V2 M_V1 M_RefLibm Spec_Bits Spec_Hash Spec_V1 Spec_V2 Spec_V2File Spec_V2Hist Spec_Libm Spec_Real P_Base P_Hash P_HashMod P_V2 P_V2Make P_V2Size P_V2Hist P_V2Props P_Geom.
From Flocq Require Import Core BinarySingleNaN.
From Verif Require Import P_Float P_FloatDiv P_Real P_RealLibm Prop_Size Spec_Rate Spec_Double P_Rate P_RateFilter P_RateFloat P_RateV2 P_Tail P_Double P_DoubleUp P_DoubleFloat Ex_Base Ex_Wyhash Prop_V2 Prop_Rate Prop_Tail.
Open Scope R_scope.

(** The remainders of the two hashes of an entry. *)
Definition rem1 (wy : hasher) (x : key) : nat := N.to_nat (hash_pop wy x mod 32768).
Definition rem2 (wy : hasher) (x : key) : nat := N.to_nat (wy_hash_one wy (be_bytes 8 (hash_pop wy x)) mod 32768).

Lemma edh_double k h1 h2 : map N.to_nat (edh_positions k h1 h2) = double (N.to_nat 32768) (N.to_nat k) (N.to_nat (h1 mod 32768)) (N.to_nat (h2 mod 32768)).
Proof.
  unfold edh_positions, double. rewrite map_map. apply map_ext. intro i. apply Nat2N.inj. rewrite N2Nat.id, Nat2N.inj_mod, !Nat2N.inj_add, Nat2N.inj_mul, Nat2N.inj_div, Nat2N.inj_sub, Nat2N.inj_pow, !N2Nat.id.
  change (N.of_nat 3) with 3%N. change (N.of_nat 6) with 6%N. unfold edh_index, edh_hash. set (t := ((N.of_nat i ^ 3 - N.of_nat i) / 6)%N). set (j := N.of_nat i). clearbody t j.
  assert (E : forall a, ((a mod 2 ^ 64) mod 32768 = a mod 32768)%N).
  { intro a. replace (2 ^ 64)%N with (32768 * 562949953421312)%N by reflexivity. rewrite N.mod_mul_r by lia. rewrite N.mul_comm, N.mod_add by lia. now rewrite N.mod_mod by lia. }
  rewrite E. rewrite (N.div_mod h1 32768) at 1 by lia. rewrite (N.div_mod h2 32768) at 1 by lia. set (a := (h1 / 32768)%N). set (b := (h2 / 32768)%N). set (x := (h1 mod 32768)%N). set (y := (h2 mod 32768)%N). clearbody a b x y.
  replace (32768 * a + x + j * (32768 * b + y) + t)%N with (x + j * y + t + (a + j * b) * 32768)%N by ring. now rewrite N.mod_add by lia.
Qed.

(** * C92 The requested rate under double hashing *)
(** The answer depends on the bucket and the two remainders only, whatever the number of hash functions. *)
Theorem C92_answer wy L f K C ks k : v2_kept wy L f K C -> (forall x, K x <-> In x ks) -> key_ok k -> v2_index_cache f = [] -> v2_capacity f <> 0%N -> len (v2_buckets f) <> 0%N ->
  let m := N.to_nat 32768 in let n := N.to_nat (v2_n_hash_buck f) in let same x := N.eqb (v2_bucket_of f (hash_pop wy k)) (v2_bucket_of f (hash_pop wy x)) in
  v2_contains wy f k = Ok true <-> all_mem (double m n (rem1 wy k) (rem2 wy k)) (double_all m n (map (fun x => (rem1 wy x, rem2 wy x)) (filter same ks))) = true.
Proof.
  intros V HK Hk I0 C0 B0 m n same. destruct (C67_v2_answer wy L f K C ks k V HK Hk I0 C0 B0) as [A _]. cbv zeta in A. rewrite A. unfold v2_positions. rewrite edh_double. fold m n.
  assert (E : forall l, flat_map (fun x => map N.to_nat (edh_positions (v2_n_hash_buck f) (hash_pop wy x) (wy_hash_one wy (be_bytes 8 (hash_pop wy x))))) l = double_all m n (map (fun x => (rem1 wy x, rem2 wy x)) l)).
  { induction l as [|x l IH]; [reflexivity|]. cbn [flat_map map]. unfold double_all in *. cbn [flat_map fst snd]. rewrite IH, edh_double. reflexivity. }
  rewrite E. reflexivity.
Qed.
Print Assumptions C92_answer.
(** So an entry brings in every key of its bucket with the same 30 bits. *)
Theorem C92_twin wy L f K C e k : v2_kept wy L f K C -> K e -> key_ok k -> v2_index_cache f = [] -> v2_capacity f <> 0%N -> len (v2_buckets f) <> 0%N ->
  v2_bucket_of f (hash_pop wy e) = v2_bucket_of f (hash_pop wy k) -> rem1 wy e = rem1 wy k -> rem2 wy e = rem2 wy k -> v2_contains wy f k = Ok true.
Proof.
  intros V Ke Hk I0 C0 B0 Eb E1 E2. apply (C03_v2_exact wy L f K C k V Hk). split; [exact C0|]. split; [exact B0|]. split; [|now left]. intros i Hi. exists e. split; [exact Ke|]. split; [exact Eb|].
  apply (in_map N.to_nat) in Hi. unfold v2_positions in *. rewrite edh_double in Hi. fold (rem1 wy k) (rem2 wy k) in Hi. rewrite <- E1, <- E2 in Hi. unfold rem1, rem2 in Hi. rewrite <- edh_double in Hi.
  apply in_map_iff in Hi as (j & Ej & Hj). apply N2Nat.inj in Ej. now subst j.
Qed.
Print Assumptions C92_twin.
(** With ideal hashes and [n] entries in [b] buckets the rate is at least about [n / (b 2^30)], whatever the number of hash functions. *)
Theorem C92_floor b m k n : (0 < b)%nat -> (0 < m)%nat -> 1 - (1 - / (INR b * (INR m * INR m))) ^ n <= double_filter_rate b m k n.
Proof. apply double_filter_lower. Qed.
Print Assumptions C92_floor.

(** For rates from 1/1000 to 1/2 double hashing keeps the promise up to a factor of 5/2. *)
Theorem C92_common pr L cap p opt f n : libm_accurate L -> libm_ln2_sq L -> libm_ln_range L -> (1 <= cap)%N -> (cap < 9007199254740992)%N -> opt = ONone \/ opt = OSpace ->
  v2_make pr L cap p opt = Ok f -> let P := sf_R (sf_of_bits p) in / 1000 <= P <= / 2 -> (n <= N.to_nat cap)%nat ->
  double_filter_rate (length (v2_buckets f)) (N.to_nat 32768) (N.to_nat (v2_n_hash_buck f)) n <= 5 / 2 * P.
Proof.
  intros A B C C1 C2 O E P HP Hn. destruct (make_buckets _ _ _ _ _ _ B C C1 C2 O E) as (B0 & BC & -> & Hp). apply (v2_double L p _ n A (proj1 B) Hp HP B0). lia.
Qed.
Print Assumptions C92_common.
(** Any sizes: [h] bounds the probability that a given bit is set, [M] and [W] what entries that hit two positions of the query and queries with
    two equal positions contribute. *)
Theorem C92_upper b m k n h M W : (0 < b)%nat -> (0 < m)%nat -> (k <= m)%nat -> 0 <= M -> 0 <= W -> h <= 1 -> 1 - (1 - INR k / (INR b * INR m)) ^ n <= h ->
  (forall N t, (2 <= N)%nat -> (N <= t)%nat -> (t <= k)%nat -> INR t * (INR t - 1) * h ^ (t - N) <= M * (INR N * (INR N - 1))) ->
  (forall d, (1 <= d)%nat -> (d < k)%nat -> h ^ (k - d) <= INR d * W) ->
  double_filter_rate b m k n <= h ^ k + M * (2 * gcd_sum m k / (INR m * INR m)) * (INR n / INR b) + W * (gcd_sum m k / INR m).
Proof. apply double_filter_upper. Qed.
Print Assumptions C92_upper.
Example C92_common_example : exists f, v2_make Release real_libm 1000000 p001 ONone = Ok f /\
  double_filter_rate (length (v2_buckets f)) (N.to_nat 32768) (N.to_nat (v2_n_hash_buck f)) (N.to_nat 1000000) <= 5 / 2 * sf_R (sf_of_bits p001).
Proof.
  destruct real_libm_meets_all as (A & B & _ & C). destruct (make_succeeds Release real_libm 1000000 p001 ONone B C ltac:(vm_compute; reflexivity) ltac:(lia)) as [f E].
  exists f. split; [exact E|]. pose proof p001_R as P. apply (C92_common Release real_libm 1000000%N p001 ONone f (N.to_nat 1000000) A B C ltac:(lia) ltac:(lia) (or_introl eq_refl) E); [|lia].
  assert (S : sf_of_bits p001 = S754_finite false 5764607523034235 (-59)) by (vm_compute; reflexivity). rewrite S. unfold sf_R, powerRZ. change (Pos.to_nat 59) with 59%nat. lra.
Qed.

Lemma p_rl p e : fpp_in_range p = true -> (2 <= e)%nat -> sf_R (sf_of_bits p) <= (/ 2) ^ e -> INR e * ln 2 <= rl p /\ sf_R (sf_of_bits p) * rl p <= INR e * ln 2 * (/ 2) ^ e.
Proof.
  intros Hp He P. destruct (fpp_real p Hp) as [_ [A _]]. pose proof (bpow_gt_0 radix2 (-1022)). pose proof ln2_num as [Lo Hi].
  assert (E : (/ 2) ^ e = exp (- (INR e * ln 2))). { replace (- (INR e * ln 2)) with (INR e * - ln 2) by ring. rewrite <- exp_pow, exp_Ropp, exp_ln by lra. reflexivity. }
  assert (R : INR e * ln 2 <= rl p). { unfold rl. rewrite E in P. apply ln_le in P; [|lra]. rewrite ln_exp in P. lra. }
  split; [exact R|]. rewrite (p_exp p Hp), Rmult_comm, E. apply a_exp. split; [|exact R]. assert (2 <= INR e) by (change 2 with (INR 2); now apply le_INR). nra.
Qed.
(** Every filter for a rate of at most [2^-22] and at least two buckets' worth of entries has more than twice that rate when it is filled to its capacity. *)
Theorem C92_every pr L cap p opt f : libm_accurate L -> libm_ln2_sq L -> libm_ln_range L -> (2 * v2_bucket_cap L p <= cap)%N -> (cap < 9007199254740992)%N -> opt = ONone \/ opt = OSpace ->
  v2_make pr L cap p opt = Ok f -> let P := sf_R (sf_of_bits p) in P <= (/ 2) ^ 22 ->
  2 * P < double_filter_rate (length (v2_buckets f)) (N.to_nat 32768) (N.to_nat (v2_n_hash_buck f)) (N.to_nat cap).
Proof.
  intros A B C C1 C2 O E P HP. pose proof (cr_fpp_range _ _ _ _ (v2_make_created _ _ _ _ _ _ E)) as Hp.
  assert (HP2 : P <= / 2) by (apply Rle_trans with (1 := HP); lra).
  destruct (cap_lower L p A Hp HP2 (proj1 B)) as [C15 [Cl Cu]]. destruct (p_rl p 22 Hp ltac:(lia) HP) as [R PR]. fold P in PR. pose proof ln2_num as [Lo Hi].
  assert (cap1 : (15 <= v2_bucket_cap L p)%N) by (apply N2Z.inj_le; apply le_IZR; exact C15).
  assert (cap0 : (1 <= cap)%N) by (clear - C1 cap1; lia).
  destruct (make_buckets _ _ _ _ _ _ B C cap0 C2 O E) as (B0 & _ & _ & _).
  assert (Eb : len (v2_buckets f) = ((cap + v2_bucket_cap L p - 1) / v2_bucket_cap L p)%N).
  { rewrite <- (n_bucket0_exact L cap p B C Hp C2). pose proof (cr_buckets _ _ _ _ (v2_make_created _ _ _ _ _ _ E)) as Q. rewrite Q, len_repeatN. apply v2_make_dims in E. destruct O; subst opt; tauto. }
  set (b := length (v2_buckets f)) in *. set (c := v2_bucket_cap L p) in *.
  assert (Bc : (2 * (N.of_nat b * c) <= 3 * cap)%N).
  { change (N.of_nat b) with (len (v2_buckets f)). rewrite Eb. pose proof (N.mul_div_le (cap + c - 1) c ltac:(lia)). lia. }
  assert (Bc' : INR b * IZR (Z.of_N c) <= 3 / 2 * INR (N.to_nat cap)).
  { rewrite INR_N. rewrite INR_IZR_INZ, <- mult_IZR, <- nat_N_Z. apply Rmult_le_reg_l with 2; [lra|]. replace (2 * (3 / 2 * IZR (Z.of_N cap))) with (3 * IZR (Z.of_N cap)) by lra. rewrite <- !mult_IZR. apply IZR_le. lia. }
  assert (Pb : 1 <= INR b) by (change 1 with (INR 1); apply le_INR; lia).
  apply Rlt_le_trans with (2 := double_filter_lower b (N.to_nat 32768) (N.to_nat (v2_n_hash_buck f)) (N.to_nat cap) B0 ltac:(lia)).
  assert (E32 : INR (N.to_nat 32768) = 32768) by (rewrite INR_N; reflexivity). rewrite E32.
  set (z := / (INR b * (32768 * 32768))). assert (Z : 0 < z <= / (32768 * 32768)).
  { unfold z. split; [apply Rinv_0_lt_compat; lra|]. apply Rinv_le_contravar; lra. }
  pose proof (power_lower z (N.to_nat cap) (proj1 Z) ltac:(lra)) as G. cbv zeta in G.
  (* the entries might exceed one per pair: use fewer of them *)
  set (n := INR (N.to_nat cap)) in *. set (C' := IZR (Z.of_N c)) in *. set (a := rl p) in *.
  assert (ap : 15 <= a) by (replace (INR 22) with 22 in R by (rewrite INR_IZR_INZ; reflexivity); lra).
  replace (INR 22) with 22 in PR by (rewrite INR_IZR_INZ; reflexivity).
  assert (Zn : 2 / 3 * C' <= n * z * (32768 * 32768)). { unfold z. replace (n * / (INR b * (32768 * 32768)) * (32768 * 32768)) with (n / INR b) by (field; lra). apply Rmult_le_reg_r with (INR b); [lra|]. unfold Rdiv. rewrite (Rmult_assoc n), Rinv_l by lra. lra. }
  assert (Zu : n * z <= / 1000).
  { unfold z. apply Rmult_le_reg_r with (INR b * (32768 * 32768)); [lra|]. rewrite Rmult_assoc, Rinv_l by lra. rewrite Rmult_1_r.
    assert (U : n <= INR b * C'). { unfold n, C'. rewrite INR_N, INR_IZR_INZ, <- mult_IZR, <- nat_N_Z. apply IZR_le. change (N.of_nat b) with (len (v2_buckets f)). rewrite Eb. rewrite <- N2Z.inj_mul. apply N2Z.inj_le. pose proof (N.div_mod (cap + c - 1) c ltac:(lia)). pose proof (N.mod_lt (cap + c - 1) c ltac:(lia)). lia. }
    assert (C' <= 32768) by nra. nra. }
  assert (PR' : P * a <= 22 * 0.6932 * (/ 2) ^ 22). { apply Rle_trans with (1 := PR). apply Rmult_le_compat_r; [apply pow_le; lra|lra]. }
  apply Rlt_le_trans with (2 := G). set (w := n * z) in *.
  apply Rlt_le_trans with (w * 0.999); [|nra]. apply Rmult_lt_reg_r with a; [lra|].
  apply Rle_lt_trans with (2 * (22 * 0.6932 * (/ 2) ^ 22)); [lra|]. assert (W : 2 / 3 * (32768 * (457 / 1000)) <= w * a * (32768 * 32768)) by nra. lra.
Qed.
Print Assumptions C92_every.

(** A filter for 757 entries at 2^-30: at least 700 times that. *)
Definition p30 : N := 4472074429978902528.
Theorem C92_refuted : exists cap p f, (forall pr, v2_make pr ref_libm cap p ONone = Ok f) /\ sf_R (sf_of_bits p) = (/ 2) ^ 30 /\ v2_n_hash_buck f = 31%N /\
  700 * (/ 2) ^ 30 < double_filter_rate (length (v2_buckets f)) (N.to_nat 32768) (N.to_nat (v2_n_hash_buck f)) (N.to_nat cap).
Proof.
  destruct (v2_make Release ref_libm 757 p30 ONone) as [f| |] eqn:E; [|vm_compute in E; discriminate E|vm_compute in E; discriminate E].
  exists 757%N, p30, f. split; [intro pr; rewrite <- E; destruct pr; vm_compute; reflexivity|].
  assert (S : sf_of_bits p30 = S754_finite false 4503599627370496 (-82)) by (vm_compute; reflexivity).
  split; [rewrite S; unfold sf_R, powerRZ; change (Pos.to_nat 82) with 82%nat; lra|].
  assert (K : v2_n_hash_buck f = 31%N /\ length (v2_buckets f) = 1%nat).
  { assert (T : (let? g := v2_make Release ref_libm 757 p30 ONone in Ok (v2_n_hash_buck g, length (v2_buckets g))) = Ok (31%N, 1%nat)) by (vm_compute; reflexivity). rewrite E in T. cbn [obind] in T. injection T as -> ->. now split. }
  destruct K as [K Bl]. split; [exact K|]. rewrite Bl.
  apply Rlt_le_trans with (2 := double_filter_lower 1 (N.to_nat 32768) _ (N.to_nat 757) ltac:(lia) ltac:(lia)).
  assert (E32 : INR (N.to_nat 32768) = 32768) by (rewrite INR_N; reflexivity). rewrite E32. change (INR 1) with 1. rewrite Rmult_1_l.
  pose proof (power_lower (/ (32768 * 32768)) (N.to_nat 757) ltac:(lra) ltac:(lra)) as G. cbv zeta in G. assert (E7 : INR (N.to_nat 757) = 757) by (rewrite INR_N; reflexivity). rewrite E7 in G. lra.
Qed.
Print Assumptions C92_refuted.

(** A filter for 2000 entries at that rate. *)
Lemma p30_R : sf_R (sf_of_bits p30) = (/ 2) ^ 30.
Proof. assert (S : sf_of_bits p30 = S754_finite false 4503599627370496 (-82)) by (vm_compute; reflexivity). rewrite S. unfold sf_R, powerRZ. change (Pos.to_nat 82) with 82%nat. lra. Qed.
Example C92_example : exists f, v2_make Release real_libm 2000 p30 ONone = Ok f /\ 2 * (/ 2) ^ 30 < double_filter_rate (length (v2_buckets f)) (N.to_nat 32768) (N.to_nat (v2_n_hash_buck f)) (N.to_nat 2000).
Proof.
  destruct real_libm_meets_all as (A & B & _ & C). destruct (make_succeeds Release real_libm 2000 p30 ONone B C ltac:(vm_compute; reflexivity) ltac:(lia)) as [f E]. exists f. split; [exact E|].
  assert (Hp : fpp_in_range p30 = true) by (vm_compute; reflexivity). pose proof p30_R as P. assert (P2 : (/ 2) ^ 30 <= / 2) by lra. assert (P22 : (/ 2) ^ 30 <= (/ 2) ^ 22) by lra.
  destruct (cap_lower real_libm p30 A Hp ltac:(rewrite P; exact P2) (proj1 B)) as [C15 [_ Cu]]. destruct (p_rl p30 30 Hp ltac:(lia) ltac:(rewrite P; apply Rle_refl)) as [R _]. replace (INR 30) with 30 in R by (rewrite INR_IZR_INZ; reflexivity). pose proof ln2_num as [Lo Hi].
  rewrite <- P. apply (C92_every Release real_libm 2000%N p30 ONone f A B C); [|lia|now left|exact E|rewrite P; exact P22].
  assert (Q : IZR (Z.of_N (v2_bucket_cap real_libm p30)) <= 900) by nra. assert (Q' : (Z.of_N (v2_bucket_cap real_libm p30) <= 900)%Z) by (apply le_IZR; exact Q). lia.
Qed.

(** * C93 Entries of at most eight bytes *)
(** They are not hashed: their first remainder is that of their first two bytes. *)
Definition first_two (b : list N) : N := nth 0 b 0%N + 256 * nth 1 b 0%N.
Theorem C93_first wy b k : byte_key b k -> bytes_ok b -> (len b <= 8)%N -> rem1 wy k = N.to_nat (first_two b mod 32768).
Proof.
  intros Kb Hb Lb. unfold rem1. f_equal. rewrite (byte_key_hash wy b k Kb). unfold hash_slice. destruct (N.ltb_spec 8 (len b)) as [H|_]; [lia|]. unfold first_two.
  assert (G : forall l, (length l = 8)%nat -> (of_le l mod 32768 = (nth 0 l 0 + 256 * nth 1 l 0) mod 32768)%N).
  { intros l Ll. destruct l as [|x [|y l]]; try discriminate. cbn [of_le nth]. set (r := of_le l). replace (x + 256 * (y + 256 * r))%N with (x + 256 * y + 2 * r * 32768)%N by ring. now rewrite N.mod_add by lia. }
  rewrite G by (apply pad8_length; exact Lb). unfold pad8. destruct b as [|x [|y b]]; [reflexivity| |]; cbn; reflexivity.
Qed.
Print Assumptions C93_first.
(** So for short entries with the same two first bytes the answer depends on the bucket and the second remainder only: 15 bits. *)
Theorem C93_answer wy L f K C ks k x : v2_kept wy L f K C -> (forall e, K e <-> In e ks) -> key_ok k -> v2_index_cache f = [] -> v2_capacity f <> 0%N -> len (v2_buckets f) <> 0%N ->
  (forall e, In e (k :: ks) -> exists b, byte_key b e /\ bytes_ok b /\ (len b <= 8)%N /\ first_two b = x) ->
  let m := N.to_nat 32768 in let n := N.to_nat (v2_n_hash_buck f) in let x' := N.to_nat (x mod 32768) in let same e := N.eqb (v2_bucket_of f (hash_pop wy k)) (v2_bucket_of f (hash_pop wy e)) in
  v2_contains wy f k = Ok true <-> all_mem (double m n x' (rem2 wy k)) (flat_map (double m n x') (map (rem2 wy) (filter same ks))) = true.
Proof.
  intros V HK Hk I0 C0 B0 S m n x' same. pose proof (C92_answer wy L f K C ks k V HK Hk I0 C0 B0) as A. cbv zeta in A. fold m n in A. rewrite A.
  assert (R : forall e, In e (k :: ks) -> rem1 wy e = x'). { intros e Ie. destruct (S e Ie) as (b & Kb & Bb & Lb & Fb). rewrite (C93_first wy b e Kb Bb Lb), Fb. reflexivity. }
  rewrite (R k (or_introl eq_refl)).
  assert (E : forall l, (forall e, In e l -> In e ks) -> double_all m n (map (fun e => (rem1 wy e, rem2 wy e)) l) = flat_map (double m n x') (map (rem2 wy) l)).
  { induction l as [|e l IH]; intro Sub; [reflexivity|]. unfold double_all in *. cbn [map flat_map fst snd]. rewrite IH by (intros; apply Sub; now right). rewrite (R e) by (right; apply Sub; now left). reflexivity. }
  fold same. rewrite E by (intros e He; apply filter_In in He; tauto). reflexivity.
Qed.
Print Assumptions C93_answer.
Theorem C93_floor m k x n : (0 < m)%nat -> 1 - (1 - / INR m) ^ n <= same_first_rate m k x n.
Proof. apply same_first_lower. Qed.
Print Assumptions C93_floor.
(** Every bucket filled with its share of such entries has more than five times the requested rate, if that is at most 1/64. *)
Theorem C93_every L p k x : libm_accurate L -> libm_ln2 L -> fpp_in_range p = true -> let P := sf_R (sf_of_bits p) in P <= / 64 ->
  5 * P < same_first_rate (N.to_nat 32768) k x (N.to_nat (v2_bucket_cap L p)).
Proof.
  intros A B Hp P HP. assert (HP2 : P <= / 2) by lra. destruct (cap_lower L p A Hp HP2 B) as [C15 [Cl Cu]]. destruct (p_rl p 6 Hp ltac:(lia)) as [R PR]; [fold P; lra|]. fold P in PR. pose proof ln2_num as [Lo Hi].
  replace (INR 6) with 6 in R, PR by (cbn; lra).
  apply Rlt_le_trans with (2 := same_first_lower (N.to_nat 32768) k x (N.to_nat (v2_bucket_cap L p)) ltac:(lia)). unfold untouched.
  assert (E32 : INR (N.to_nat 32768) = 32768) by (rewrite INR_N; reflexivity). rewrite E32.
  pose proof (power_lower (/ 32768) (N.to_nat (v2_bucket_cap L p)) ltac:(lra) ltac:(lra)) as G. cbv zeta in G. rewrite INR_N in G. apply Rlt_le_trans with (2 := G). set (c := IZR (Z.of_N (v2_bucket_cap L p))) in *. set (a := rl p) in *.
  set (w := c * / 32768). assert (W1 : 457 / 1000 <= w * a <= 481 / 1000) by (unfold w; lra). assert (W0 : 0 < w) by (unfold w; lra). assert (W2 : w <= 0.1157) by nra.
  apply Rlt_le_trans with (w * 0.94); [|nra]. apply Rmult_lt_reg_r with a; [lra|]. assert (6 * ln 2 * (/ 2) ^ 6 <= 0.065) by lra. nra.
Qed.
Print Assumptions C93_every.
(** A full filter for 3418 entries at 1%: more than nine times that. *)
Theorem C93_refuted : exists cap p f, (forall pr, v2_make pr ref_libm cap p ONone = Ok f) /\ sf_R (sf_of_bits p) < 0.01001 /\ v2_n_hash_buck f = 7%N /\ length (v2_buckets f) = 1%nat /\
  forall x, 9 * 0.01001 < same_first_rate (N.to_nat 32768) (N.to_nat (v2_n_hash_buck f)) x (N.to_nat cap).
Proof.
  destruct (v2_make Release ref_libm 3418 p001 ONone) as [f| |] eqn:E; [|vm_compute in E; discriminate E|vm_compute in E; discriminate E].
  exists 3418%N, p001, f. split; [intro pr; rewrite <- E; destruct pr; vm_compute; reflexivity|].
  assert (S : sf_of_bits p001 = S754_finite false 5764607523034235 (-59)) by (vm_compute; reflexivity).
  split; [rewrite S; unfold sf_R, powerRZ; change (Pos.to_nat 59) with 59%nat; lra|].
  assert (K : v2_n_hash_buck f = 7%N /\ length (v2_buckets f) = 1%nat).
  { assert (T : (let? g := v2_make Release ref_libm 3418 p001 ONone in Ok (v2_n_hash_buck g, length (v2_buckets g))) = Ok (7%N, 1%nat)) by (vm_compute; reflexivity). rewrite E in T. cbn [obind] in T. injection T as -> ->. now split. }
  destruct K as [K Bl]. split; [exact K|]. split; [exact Bl|]. intro x.
  apply Rlt_le_trans with (2 := same_first_lower (N.to_nat 32768) _ x (N.to_nat 3418) ltac:(lia)). unfold untouched.
  assert (E32 : INR (N.to_nat 32768) = 32768) by (rewrite INR_N; reflexivity). rewrite E32.
  pose proof (power_lower (/ 32768) (N.to_nat 3418) ltac:(lra) ltac:(lra)) as G. cbv zeta in G. assert (E7 : INR (N.to_nat 3418) = 3418) by (rewrite INR_N; reflexivity). rewrite E7 in G. lra.
Qed.
Print Assumptions C93_refuted.
Example C93_every_example x : 5 * (/ 2) ^ 30 < same_first_rate (N.to_nat 32768) 31 x (N.to_nat (v2_bucket_cap real_libm p30)).
Proof. destruct real_libm_meets_all as (A & B & _ & C). rewrite <- p30_R. apply (C93_every real_libm p30 31 x A (proj1 B) ltac:(vm_compute; reflexivity)). rewrite p30_R. lra. Qed.
(** With the wyhash of Ex_Wyhash.v: a filter for 757 entries at 2^-30 that holds the date 20200312 also contains 20200506. *)
Example C93_dates : exists f g, v2_make Release ref_libm 757 p30 ONone = Ok f /\ v2_insert Release wy_ref f (KStr [50; 48; 50; 48; 48; 51; 49; 50]%N) = (g, Ok true) /\
  v2_contains wy_ref g (KStr [50; 48; 50; 48; 48; 53; 48; 54]%N) = Ok true.
Proof.
  destruct (v2_make Release ref_libm 757 p30 ONone) as [f| |] eqn:E; [|vm_compute in E; discriminate E|vm_compute in E; discriminate E].
  destruct (v2_insert Release wy_ref f (KStr [50; 48; 50; 48; 48; 51; 49; 50]%N)) as [g o] eqn:I. exists f, g.
  assert (T : (let? f := v2_make Release ref_libm 757 p30 ONone in let (g, o) := v2_insert Release wy_ref f (KStr [50; 48; 50; 48; 48; 51; 49; 50]%N) in let? a := o in let? c := v2_contains wy_ref g (KStr [50; 48; 50; 48; 48; 53; 48; 54]%N) in Ok (a, c)) = Ok (true, true)) by (vm_compute; reflexivity).
  rewrite E in T. cbn [obind] in T. rewrite I in T. destruct o as [[]| |]; cbn [obind] in T; try discriminate T; destruct (v2_contains wy_ref g _) as [[]| |] eqn:C; cbn [obind] in T; try discriminate T; auto.
Qed.
(** Counted by hand: one entry, two bits. *)
Example C93_count_example : same_first_rate 2 1 0 1 = 1 /\ same_first_rate 2 2 0 1 = 3 / 4 /\ double_rate 2 1 1 = 1 / 2.
Proof.
  unfold same_first_rate, double_rate, avg_pairs, double_all, avg_seq, avg, sum_below, ind, all_mem, mem, double. cbn -[Rdiv Rplus Rmult]. repeat split; lra.
Qed.
