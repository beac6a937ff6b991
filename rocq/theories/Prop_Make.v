(** Created filters: no panics (C23), geometry of v2 filters (C35). *)
From Coq Require Import Lia.
From Verif Require Import M_Bloom M_RefLibm Spec_Bits Spec_Hash Spec_V2 Spec_V2Hist Spec_V1 Spec_Libm P_Base P_V2Sem P_V2Codec P_V2Make P_V2Size P_V2Hist P_V2Props
  P_V1 P_V1Size P_V1Codec P_V1Hist P_Geom Prop_V2 Prop_V1 Ex_Base Ex_V1.
Open Scope N_scope.

(** * C23 No panics on created filters *)
(** After any sequence of inserts, clears, data assignments and reloads on a filter whose creation succeeded, no call of
    insert, contains, size_in_bytes, save and reload panics, in debug and release builds. *)
Lemma no_panic_v2 pr wy L cap fpp opt f0 f n : cap < two64 -> fpp < two64 -> v2_make pr L cap fpp opt = Ok f0 -> v2_usable f0 -> v2_solo wy f0 f n ->
  (forall pr' k, key_ok k -> snd (v2_insert pr' wy f k) <> Panic) /\ (forall k, key_ok k -> v2_contains wy f k <> Panic) /\
  (forall pr', v2_size_in_bytes pr' f <> Panic) /\ (forall pr', v2_from_reader pr' (v2_write f) <> Panic).
Proof.
  intros Hc Hf E U S. destruct (created_solo_pre _ _ _ _ _ _ Hc Hf E) as (W & R & C & Ca).
  destruct (solo_inv wy f0 f n W U R C S) as (W' & F & Cn & Le).
  assert (U' : v2_usable f). { intro Z. destruct F as (_ & _ & _ & Fc & _ & _ & Fb & _). rewrite Fb. apply U. congruence. }
  split. { intros pr' k Hk. destruct (v2_insert pr' wy f k) as [g r] eqn:I. exact (proj1 (solo_insert pr' wy f0 f n k g r W U R C S Hk I)). }
  split. { intros k Hk. destruct (contains_total wy f k W' U' Hk) as [-> | ->]; discriminate. }
  split. { intro pr'. unfold v2_size_in_bytes, checked_mul, checked_add. pose proof (wf_buckets_len _ W'). rewrite (wf_n_buckets _ W').
    pose proof (wf_cache_len _ W'). pose proof (wf_cache_size _ W') as Q. unfold BUCKET_SIZE, isize_max, two64 in *.
    assert (len (v2_buckets f) * 4096 <= 9223372036854775807) by lia.
    destruct (N.ltb_spec (len (v2_buckets f) * 4096) 18446744073709551616); [|lia]. cbn [obind].
    destruct (N.ltb_spec (len (v2_buckets f) * 4096 + v2_cache_byte_size f) 18446744073709551616); [discriminate|lia]. }
  intro pr'. rewrite (v2_roundtrip pr' f W'). discriminate.
Qed.
Theorem C23_v2_no_panic pr wy L cap fpp opt f0 f n : libm_ln2_sq L -> libm_ln_range L -> cap < two64 -> fpp < two64 ->
  v2_make pr L cap fpp opt = Ok f0 -> v2_solo wy f0 f n ->
  (forall pr' k, key_ok k -> snd (v2_insert pr' wy f k) <> Panic) /\ (forall k, key_ok k -> v2_contains wy f k <> Panic) /\
  (forall pr', v2_size_in_bytes pr' f <> Panic) /\ (forall pr', v2_from_reader pr' (v2_write f) <> Panic).
Proof. intros A B Hc Hf E. exact (no_panic_v2 pr wy L cap fpp opt f0 f n Hc Hf E (make_usable _ _ _ _ _ _ A B Hc E)). Qed.
Print Assumptions C23_v2_no_panic.
(** Whatever the math library computes, this holds for every level but speed, and for speed in debug builds. *)
Theorem C23_v2_no_panic_any_libm pr wy L cap fpp opt f0 f n : opt <> OSpeed \/ pr = Debug -> cap < two64 -> fpp < two64 ->
  v2_make pr L cap fpp opt = Ok f0 -> v2_solo wy f0 f n ->
  (forall pr' k, key_ok k -> snd (v2_insert pr' wy f k) <> Panic) /\ (forall k, key_ok k -> v2_contains wy f k <> Panic) /\
  (forall pr', v2_size_in_bytes pr' f <> Panic) /\ (forall pr', v2_from_reader pr' (v2_write f) <> Panic).
Proof. intros O Hc Hf E. exact (no_panic_v2 pr wy L cap fpp opt f0 f n Hc Hf E (make_usable_any _ _ _ _ _ _ Hc O E)). Qed.
Print Assumptions C23_v2_no_panic_any_libm.
(** Creation itself succeeds for every accepted rate and every capacity below 2^53, at every level, in debug and release
    builds (allocation is assumed to succeed). *)
Theorem C23_v2_make_succeeds pr L cap fpp opt : libm_ln2_sq L -> libm_ln_range L -> fpp_in_range fpp = true -> cap < 9007199254740992 ->
  exists f, v2_make pr L cap fpp opt = Ok f.
Proof. exact (make_succeeds pr L cap fpp opt). Qed.
Print Assumptions C23_v2_make_succeeds.
(** Beyond, it may panic: the buckets of 2^61 entries at 1% do not fit an address space, and in debug builds
    next_power_of_two overflows above 2^63. *)
Example C23_v2_make_example : v2_make Release ref_libm (2 ^ 64 - 1) p001 ONone = Panic /\ v2_make Debug ref_libm (2 ^ 63 + 1) p1 OSpeed = Panic /\
  v2_make Release ref_libm (2 ^ 63 + 1) p1 OSpeed = Ok fhuge.
Proof. split; [vm_compute; reflexivity|]. split; [vm_compute; reflexivity|exact fhuge_eq]. Qed.
Example C23_v2_example : v2_make Release ref_libm 4 p001 ONone = Ok fn0 /\ v2_solo ex_wy fn0 fn2 2 /\ v2_size_in_bytes Debug fn2 = Ok 4096 /\
  snd (v2_insert Debug ex_wy fn2 kc) = Ok true /\ v2_contains ex_wy fn2 kc = Ok false.
Proof.
  split; [exact fn0_eq|]. split; [exact fn2_solo|]. split; [vm_compute; reflexivity|]. split; vm_compute; reflexivity.
Qed.

(** v1 filters, with any math library. size_in_bytes multiplies the bit count by 8, which overflows in debug builds from
    2^61 bits on. *)
Theorem C23_v1_no_panic_partial L cap fpp f0 f n : cap < two64 -> fpp < two64 -> v1_with_capacity L cap fpp = Ok f0 -> v1_solo f0 f n ->
  (forall pr d, snd (v1_insert_bytes pr f d) <> Panic) /\ (forall d, v1_contains_bytes f d <> Panic) /\
  (forall pr, v1_from_reader pr (v1_write f) <> Panic) /\
  (forall pr, v1_size_in_bytes pr f = Panic <-> pr = Debug /\ 2305843009213693952 <= v1_bit_size f).
Proof.
  intros Hc Hf E S. destruct (v1_created_pre _ _ _ _ Hc Hf E) as (W & U & F & C & Ca).
  destruct (v1_solo_inv f0 f n W F C S) as (W' & Fr & Cn & Le).
  split. { intros pr d. destruct (v1_insert_bytes pr f d) as [g r] eqn:I. exact (proj1 (v1_solo_insert pr f0 f n d g r W U F C S I)). }
  assert (U' : v1_usable f). { destruct Fr as (_ & _ & _ & Fn & Fb & _ & Fl). unfold v1_usable in *. rewrite Fn, Fb, Fl. exact U. }
  split. { intro d. destruct (v1_contains_bool f d W' U') as [-> | ->]; discriminate. }
  split. { intro pr. rewrite (v1_roundtrip pr f W'). discriminate. }
  intro pr. unfold v1_size_in_bytes, v1_size_in_u64, checked_mul, two64.
  destruct (N.ltb_spec (v1_bit_size f * 8) 18446744073709551616); destruct pr; (split; [intro Q; first [discriminate Q|split; [reflexivity|lia]]|intros [Q ?]; try discriminate Q; try reflexivity; lia]).
Qed.
Print Assumptions C23_v1_no_panic_partial.
(** Such a filter: 2^59 entries at 1%, 5.5e18 bits. *)
Theorem C23_refuted : exists L cap fpp f, cap < two64 /\ fpp < two64 /\ v1_with_capacity L cap fpp = Ok f /\ v1_size_in_bytes Debug f = Panic.
Proof.
  exists ref_libm, 576460752303423488, p001. assert (R : fpp_in_range p001 = true) by (vm_compute; reflexivity).
  unfold v1_with_capacity. rewrite R. cbn [negb]. cbv zeta. rewrite vec_of_fits by (apply u64_size_alloc; apply bu_bit_size_lt). cbn [obind].
  eexists. split; [reflexivity|]. split; [vm_compute; reflexivity|]. split; [reflexivity|]. unfold v1_size_in_bytes, v1_size_in_u64. cbn [v1_bit_size].
  vm_compute. reflexivity.
Qed.
Print Assumptions C23_refuted.
(** Creation of a v1 filter never panics. *)
Theorem C23_v1_make_succeeds L cap fpp : fpp_in_range fpp = true -> exists f, v1_with_capacity L cap fpp = Ok f.
Proof.
  intro R. unfold v1_with_capacity. rewrite R. cbn [negb]. cbv zeta. rewrite vec_of_fits; [cbn [obind]; eauto|].
  apply u64_size_alloc. apply bu_bit_size_lt.
Qed.
Print Assumptions C23_v1_make_succeeds.
Example C23_v1_example : v1_with_capacity ref_libm 4 p001 = Ok e0 /\ v1_solo e0 e2 2 /\ v1_size_in_bytes Debug e2 = Ok 304 /\
  snd (v1_insert_bytes Debug e2 dc) = Ok true /\ v1_contains_bytes e2 dc = Ok false.
Proof.
  split; [exact e0_eq|]. split; [exact e2_solo|]. split; [vm_compute; reflexivity|]. split; vm_compute; reflexivity.
Qed.

(** * C35 Geometry of v2 filters *)
(** [v2_bucket_cap L fpp] is the number of entries one bucket takes at rate [fpp]. *)
Theorem C35_v2_geometry pr L cap fpp opt f : libm_ln2_sq L -> libm_ln_range L -> cap < 9007199254740992 ->
  v2_make pr L cap fpp opt = Ok f ->
  let c := v2_bucket_cap L fpp in
  let n := (cap + c - 1) / c in                                  (* ceil(cap / c) *)
  c <> 0 /\
  Forall (fun b => length b = N.to_nat 4096 /\ Forall (fun x => x = 0) b) (v2_buckets f) /\
  (opt <> OSpeed -> len (v2_buckets f) = n) /\
  (opt = OSpeed -> is_ceil_pow2 n (len (v2_buckets f))) /\
  (opt = OSpeed \/ opt = OBest -> exists j, 8 * len (v2_index_cache f) = 2 ^ j /\ 8 <= 2 ^ j /\ cap <= 2 ^ j /\ (8 <= cap -> 2 ^ j < 2 * cap)) /\
  (opt = ONone \/ opt = OSpace -> v2_index_cache f = []).
Proof.
  intros A B Hc E. cbv zeta. apply v2_make_created in E as Cr. apply v2_make_dims in E as D. pose proof (cr_fpp_range _ _ _ _ Cr) as R.
  pose proof (bucket_cap_ge L fpp A B R) as G. rewrite (n_bucket0_exact L cap fpp A B R Hc) in D.
  assert (NB : (cap + v2_bucket_cap L fpp - 1) / v2_bucket_cap L fpp <= 9223372036854775808).
  { rewrite <- (n_bucket0_exact L cap fpp A B R Hc). apply ceil_div_le; [unfold two64; lia|lia|apply bucket_cap_lt]. }
  set (n := (cap + v2_bucket_cap L fpp - 1) / v2_bucket_cap L fpp) in *.
  assert (Lb : len (v2_buckets f) = v2_n_buckets f) by (rewrite (cr_buckets _ _ _ _ Cr) at 1; apply len_repeatN).
  assert (Lc : len (v2_index_cache f) = v2_cache_byte_size f) by (rewrite (cr_cache _ _ _ _ Cr) at 1; apply len_repeatN).
  split; [lia|]. split. { rewrite (cr_buckets _ _ _ _ Cr). apply Forall_forall. intros b Hb. apply repeat_spec in Hb. subst b.
    split; [apply bucket_new_ok|]. apply Forall_forall. intros x Hx. unfold bucket_new in Hx. apply repeat_spec in Hx. exact Hx. }
  split. { intro O. destruct opt; try congruence; rewrite Lb; apply D. }
  split. { intro O. rewrite Lb. subst opt. destruct D as [D _]. exact (next_pow2_least pr n _ NB D). }
  split.
  - intro O. assert (D' : exists c, next_power_of_two pr cap = Ok c /\ v2_cache_byte_size f = byte_cap_from_bit_cap c) by (destruct O as [-> | ->]; apply D).
    destruct D' as (c & Ec & Es). destruct (next_pow2_val pr cap ltac:(lia)) as (k & K & Ek & L1 & L2). rewrite Ec in Ek. apply Ok_inj in Ek. subst c.
    destruct (cache_bits k K) as (j & J1 & J2 & J3 & J4). exists j. rewrite Lc, Es. split; [exact J1|]. split; [exact J2|]. split; [lia|].
    intro H8. rewrite (J4 ltac:(lia)). apply L2. lia.
  - intro O. pose proof (cr_cache_opt _ _ _ _ Cr) as Q. destruct O as [-> | ->]; exact Q.
Qed.
Print Assumptions C35_v2_geometry.
(** The bounds on the capacity are needed: the conversion of larger capacities to doubles rounds. *)
Example C35_v2_example : v2_bucket_cap ref_libm p001 = 3418 /\
  (exists f, v2_make Debug ref_libm 10000 p001 ONone = Ok f /\ len (v2_buckets f) = 3 /\ v2_index_cache f = []) /\
  (exists f, v2_make Debug ref_libm 10000 p001 OSpeed = Ok f /\ len (v2_buckets f) = 4 /\ len (v2_index_cache f) = 2048).
Proof.
  split; [vm_compute; reflexivity|]. split.
  - destruct (v2_make Debug ref_libm 10000 p001 ONone) as [f| |] eqn:E; [|vm_compute in E; discriminate E..]. exists f. split; [reflexivity|].
    apply v2_make_dims in E as D. apply v2_make_created in E as Cr. split; [|exact (cr_cache_opt _ _ _ _ Cr)].
    rewrite (cr_buckets _ _ _ _ Cr), len_repeatN. destruct D as [-> _]. vm_compute. reflexivity.
  - destruct (v2_make Debug ref_libm 10000 p001 OSpeed) as [f| |] eqn:E; [|vm_compute in E; discriminate E..]. exists f. split; [reflexivity|].
    apply v2_make_dims in E as D. apply v2_make_created in E as Cr. rewrite (cr_buckets _ _ _ _ Cr), (cr_cache _ _ _ _ Cr), !len_repeatN.
    destruct D as [D (c & Ec & ->)].
    assert (D' : next_power_of_two Debug (v2_n_bucket0 ref_libm 10000 p001) = Ok 4) by (vm_compute; reflexivity).
    assert (E' : next_power_of_two Debug 10000 = Ok 16384) by (vm_compute; reflexivity). rewrite D' in D. rewrite E' in Ec.
    apply Ok_inj in D, Ec. rewrite <- D, <- Ec. split; vm_compute; reflexivity.
Qed.
