(** Shares of the hash values that fall in each bucket and on each position of the index cache. *)
From Coq Require Import Lia List.
Import ListNotations.
From Verif Require Import M_V2 M_RefLibm Spec_Bits Spec_Hash Spec_V2 Spec_Libm P_Base P_Hash P_V2 P_V2Make P_V2Size P_Geom Ex_Base.
Open Scope N_scope.

Lemma NoDup_map_in {A B} (f : A -> B) l : NoDup l -> (forall x y, In x l -> In y l -> f x = f y -> x = y) -> NoDup (map f l).
Proof.
  induction 1 as [|a l Na ND IH]; intro Inj; [constructor|]. cbn. constructor.
  - intro H. apply in_map_iff in H as (x & E & Hx). apply Na. rewrite <- (Inj x a (or_intror Hx) (or_introl eq_refl) E). exact Hx.
  - apply IH. intros x y Hx Hy. apply Inj; now right.
Qed.
(** The values below [m] that are [b] modulo [n]. *)
Lemma residues m n b : n <> 0 -> b < n -> exists l, NoDup l /\ (forall y, In y l <-> y < m /\ y mod n = b) /\ m / n <= len l <= m / n + 1 /\ (m mod n = 0 -> len l = m / n).
Proof.
  intros Hn Hb. set (c := (m + n - 1 - b) / n). exists (map (fun q => b + n * N.of_nat q) (seq 0 (N.to_nat c))).
  assert (D : m + n - 1 - b = n * c + (m + n - 1 - b) mod n) by (apply N.div_mod; exact Hn). pose proof (N.mod_lt (m + n - 1 - b) n Hn) as M.
  assert (E : m = n * (m / n) + m mod n) by (apply N.div_mod; exact Hn). pose proof (N.mod_lt m n Hn) as M2.
  set (r := (m + n - 1 - b) mod n) in *. set (r2 := m mod n) in *. set (w := m / n) in *. clearbody c r r2 w. split; [|split; [|split]].
  - apply NoDup_map_in; [apply seq_NoDup|]. intros x y _ _ H. assert (n * N.of_nat x = n * N.of_nat y) by lia. apply N.mul_cancel_l in H0; lia.
  - intro y. rewrite in_map_iff. split.
    + intros (q & <- & Hq). apply in_seq in Hq. split.
      * assert (N.of_nat q + 1 <= c) by lia. assert (n * (N.of_nat q + 1) <= n * c) by (apply N.mul_le_mono_l; exact H). rewrite N.mul_add_distr_l in H0. lia.
      * rewrite (N.mul_comm n), N.mod_add by exact Hn. now apply N.mod_small.
    + intros [Hy Hm]. exists (N.to_nat (y / n)). pose proof (N.div_mod y n Hn) as Dy. rewrite Hm in Dy. set (z := y / n) in *. clearbody z. rewrite Nnat.N2Nat.id. split; [lia|]. apply in_seq. split; [lia|].
      assert (n * z < n * c); [lia|]. apply N.mul_lt_mono_pos_l in H; lia.
  - unfold len. rewrite map_length, seq_length, Nnat.N2Nat.id. split.
    + destruct (N.le_gt_cases (w) c); [exact H|]. assert (n * (c + 1) <= n * (w)) by (apply N.mul_le_mono_l; lia). rewrite N.mul_add_distr_l in H0. lia.
    + destruct (N.le_gt_cases c (w + 1)); [exact H|]. assert (n * (w + 2) <= n * c) by (apply N.mul_le_mono_l; lia). rewrite N.mul_add_distr_l in H0. lia.
  - intro Z. unfold len. rewrite map_length, seq_length, Nnat.N2Nat.id. rewrite Z in E. apply N.le_antisymm.
    + destruct (N.le_gt_cases c (w)); [exact H|]. assert (n * (w + 1) <= n * c) by (apply N.mul_le_mono_l; lia). rewrite N.mul_add_distr_l in H0. lia.
    + destruct (N.le_gt_cases (w) c); [exact H|]. assert (n * (c + 1) <= n * (w)) by (apply N.mul_le_mono_l; lia). rewrite N.mul_add_distr_l in H0. lia.
Qed.
(** The same for the values whose xor-shift is [b] modulo [n]. *)
Lemma hash_residues n b : n <> 0 -> b < n ->
  exists l, NoDup l /\ (forall h, In h l <-> h < two64 /\ xorshift_star h mod n = b) /\ two64 / n <= len l <= two64 / n + 1 /\ (two64 mod n = 0 -> len l = two64 / n).
Proof.
  intros Hn Hb. destruct (residues two64 n b Hn Hb) as (l & ND & A & C). exists (map xs_unmix l).
  assert (U : forall y, xs_unmix y < two64) by (intro y; apply xs_unmix_lt).
  split; [|split].
  - apply NoDup_map_in; [exact ND|]. intros x y Hx Hy E. apply A in Hx as [Hx _], Hy as [Hy _]. rewrite <- (xs_unmix_r x Hx), <- (xs_unmix_r y Hy). now rewrite E.
  - intro h. rewrite in_map_iff. split.
    + intros (y & <- & Hy). apply A in Hy as [Hy R]. rewrite xs_unmix_r by exact Hy. split; [apply U|exact R].
    + intros [Hh R]. exists (xorshift_star h). split; [now apply xs_unmix_l|]. apply A. split; [apply w64_lt|exact R].
  - unfold len in *. rewrite map_length. exact C.
Qed.

(** * C70 Shares of the buckets and of the cache positions *)
(** If all 64-bit hashes are equally likely, so are the buckets, up to one hash value in 2^64 / n. *)
Theorem C70_bucket_share f b : b < len (v2_buckets f) -> let n := len (v2_buckets f) in
  exists l, NoDup l /\ (forall h, In h l <-> h < two64 /\ v2_bucket_of f h = b) /\ two64 / n <= len l <= two64 / n + 1.
Proof. intros Hb n. destruct (hash_residues n b ltac:(unfold n; lia) Hb) as (l & A & B & C & _). exists l. auto. Qed.
Print Assumptions C70_bucket_share.
(** Each bit of the index cache is selected by exactly the same number of hash values. *)
Theorem C70_cache_share pr L cap p opt f i : v2_make pr L cap p opt = Ok f -> opt = OSpeed \/ opt = OBest -> cap <= 9223372036854775808 -> let c := 8 * len (v2_index_cache f) in i < c ->
  exists l, NoDup l /\ (forall h, In h l <-> h < two64 /\ v2_cache_of f h = i) /\ len l * c = two64.
Proof.
  intros E O Hc c Hi. pose proof (v2_make_dims _ _ _ _ _ _ E) as D. pose proof (v2_make_created _ _ _ _ _ _ E) as Cr.
  assert (D' : exists c0, next_power_of_two pr cap = Ok c0 /\ v2_cache_byte_size f = byte_cap_from_bit_cap c0) by (destruct O; subst opt; tauto). destruct D' as (c0 & N0 & B0).
  destruct (next_pow2_val pr cap Hc) as (k & Hk & N1 & _). rewrite N1 in N0. injection N0 as <-. destruct (cache_bits k Hk) as (j & J & _).
  assert (Ec : c = 2 ^ j). { unfold c. rewrite (cr_cache _ _ _ _ Cr), len_repeatN, B0. exact J. }
  assert (Hj : j < 64). { pose proof (cr_cache_len _ _ _ _ Cr) as Q. rewrite B0, J in Q. change two64 with (2 ^ 64) in Q. apply N.pow_lt_mono_r_iff in Q; lia. }
  assert (P : 2 ^ j <> 0) by (apply N.pow_nonzero; discriminate). destruct (hash_residues (2 ^ j) i P ltac:(lia)) as (l & A & B & _ & C). exists l. split; [exact A|]. split.
  - intro h. rewrite B. unfold v2_cache_of. fold c. rewrite Ec. replace (2 ^ j - 1) with (N.ones j) by (rewrite N.ones_equiv; lia). now rewrite N.land_ones.
  - assert (T : two64 = 2 ^ (64 - j) * 2 ^ j) by (rewrite <- N.pow_add_r; change two64 with (2 ^ 64); f_equal; lia).
    rewrite Ec, C; rewrite T; [now rewrite N.div_mul|now apply N.mod_mul].
Qed.
Print Assumptions C70_cache_share.
(** Level speed: the cache position determines the bucket, so that keys which share a cache position share their bucket. *)
Theorem C70_cache_fixes_bucket pr L cap p f h : libm_ln2_sq L -> libm_ln_range L -> v2_make pr L cap p OSpeed = Ok f -> 1 <= cap -> cap < 9007199254740992 ->
  v2_bucket_of f h = v2_cache_of f h mod len (v2_buckets f).
Proof.
  intros A1 A2 E C1 C2. pose proof (v2_make_dims _ _ _ _ _ _ E) as (Nb & c0 & N0 & B0). pose proof (v2_make_created _ _ _ _ _ _ E) as Cr. pose proof (cr_fpp_range _ _ _ _ Cr) as Hp.
  destruct (next_pow2_val pr cap ltac:(lia)) as (k & Hk & N1 & K1 & _). rewrite N1 in N0. injection N0 as <-. destruct (cache_bits k Hk) as (j & J & _ & J2 & _).
  pose proof (n_bucket0_exact L cap p A1 A2 Hp C2) as EB. pose proof (bucket_cap_ge L p A1 A2 Hp) as C19. set (bc := v2_bucket_cap L p) in *.
  assert (LE : v2_n_bucket0 L cap p <= cap). { rewrite EB. apply N.lt_succ_r. apply N.div_lt_upper_bound; nia. }
  pose proof (next_pow2_least pr (v2_n_bucket0 L cap p) (v2_n_buckets f) ltac:(lia) Nb) as ((a & Ea) & _ & Least). specialize (Least k (N.le_trans _ _ _ LE K1)).
  assert (Ln : len (v2_buckets f) = 2 ^ a) by (rewrite (cr_buckets _ _ _ _ Cr), len_repeatN; exact Ea).
  assert (Lc : 8 * len (v2_index_cache f) = 2 ^ j) by (rewrite (cr_cache _ _ _ _ Cr), len_repeatN, B0; exact J).
  assert (AJ : a <= j). { apply (N.pow_le_mono_r_iff 2); [lia|]. rewrite <- Ea. exact (N.le_trans _ _ _ Least J2). }
  unfold v2_bucket_of, v2_cache_of. rewrite Ln, Lc. replace (2 ^ j - 1) with (N.ones j) by (rewrite N.ones_equiv; lia). rewrite N.land_ones.
  replace (2 ^ j) with (2 ^ a * 2 ^ (j - a)) by (rewrite <- N.pow_add_r; f_equal; lia).
  assert (P1 : 2 ^ a <> 0) by (apply N.pow_nonzero; discriminate). assert (P2 : 2 ^ (j - a) <> 0) by (apply N.pow_nonzero; discriminate).
  rewrite N.mod_mul_r by assumption. rewrite (N.mul_comm (2 ^ a)), N.mod_add by exact P1. now rewrite N.mod_mod.
Qed.
Print Assumptions C70_cache_fixes_bucket.
Example C70_example : let f := mk 10000 p001 OSpeed in v2_make Release ref_libm 10000 p001 OSpeed = Ok f /\ len (v2_buckets f) = 4 /\ 8 * len (v2_index_cache f) = 16384 /\
  v2_bucket_of f 12345 = 0 /\ v2_cache_of f 12345 = 15960.
Proof. split; [apply mk_eq; vm_compute; reflexivity|]. vm_compute. repeat split. Qed.
