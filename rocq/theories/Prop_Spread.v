(** C94: how entries of at most eight bytes spread over the buckets and the cache (v2.rs:30-36, hash.rs:52-63). *)
From Coq Require Import Lia Reals Lra List.
Import ListNotations.
From Verif Require Import M_V2 M_V1 M_RefLibm Spec_Bits Spec_Hash Spec_V1 Spec_V2 Spec_V2File Spec_V2Hist Spec_Libm Spec_Real P_Base P_Hash P_HashMod P_V2 P_V2Make P_V2Size P_V2Hist P_V2Props P_Geom.
From Verif Require Import P_Float P_Real P_RealLibm Spec_Rate Spec_Double P_Rate P_RateFilter P_RateFloat P_RateV2 P_Tail P_Double P_DoubleUp P_DoubleFloat Ex_Base Ex_Wyhash Prop_V2 Prop_Rate Prop_Tail Prop_Double.
Open Scope N_scope.

Lemma mod_pow2_bits a b k : a mod 2 ^ k = b mod 2 ^ k <-> forall j, j < k -> N.testbit a j = N.testbit b j.
Proof.
  split.
  - intros E j Hj. rewrite <- (N.mod_pow2_bits_low a k j Hj), <- (N.mod_pow2_bits_low b k j Hj). now rewrite E.
  - intro H. apply N.bits_inj. intro j. destruct (N.lt_ge_cases j k) as [Hj|Hj]; [rewrite !N.mod_pow2_bits_low by exact Hj; auto|now rewrite !N.mod_pow2_bits_high by exact Hj].
Qed.

Lemma all_mem_spec q l : all_mem q l = true <-> forall i, In i q -> In i l.
Proof. unfold all_mem. rewrite forallb_forall. split; intros H i Hi; apply mem_In; auto. Qed.

(** * C94 Where short entries go *)
(** The low [k] bits of the bucket hash depend on the low [k + 25] bits of the entry's hash only. *)
Theorem C94_low_bits k h h' : k <= 27 -> h mod 2 ^ (k + 25) = h' mod 2 ^ (k + 25) -> xorshift_star h mod 2 ^ k = xorshift_star h' mod 2 ^ k.
Proof.
  intros Hk E. rewrite mod_pow2_bits in E. rewrite !xorshift_star_alt.
  assert (P : forall a, (w64 a) mod 2 ^ k = a mod 2 ^ k).
  { intro a. apply mod_pow2_bits. intros j Hj. rewrite testbit_w64. destruct (N.ltb_spec j 64); [reflexivity|lia]. }
  rewrite !P. assert (Z : 2 ^ k <> 0) by (apply N.pow_nonzero; discriminate).
  rewrite (N.mul_mod (lsh 27 (rsh 25 (lsh 12 h)))), (N.mul_mod (lsh 27 (rsh 25 (lsh 12 h')))) by exact Z. f_equal. f_equal.
  apply mod_pow2_bits. intros j Hj. rewrite !lsh_bit. destruct (N.leb_spec 27 j); [lia|]. rewrite !andb_false_r. cbn [andb]. rewrite !xorb_false_r, !rsh_bit.
  rewrite !lsh_bit. rewrite (E j), (E (j + 25)), (E (j - 12)), (E (j + 25 - 12)) by lia. reflexivity.
Qed.
Print Assumptions C94_low_bits.
(** The bound is sharp in the middle of the word: bit [k + 24] matters. *)
Example C94_low_bits_sharp : xorshift_star 0 mod 2 ^ 7 <> xorshift_star (2 ^ 31) mod 2 ^ 7.
Proof. vm_compute. discriminate. Qed.

(** The hash of a short entry modulo [2 ^ (8 n)] is given by its first [n] bytes, absent ones counting as zero. *)
Definition start (n : nat) (b : list N) : list N := firstn n (b ++ repeat 0 n).
Lemma of_le_firstn n l : of_le l mod 2 ^ (8 * N.of_nat n) = of_le (firstn n l) mod 2 ^ (8 * N.of_nat n).
Proof.
  revert l. induction n; intro l; [now rewrite !N.mod_1_r|]. destruct l as [|x l]; [reflexivity|]. cbn [firstn of_le].
  replace (8 * N.of_nat (S n)) with (8 + 8 * N.of_nat n) by lia. rewrite N.pow_add_r. change (2 ^ 8) with 256. set (m := 2 ^ (8 * N.of_nat n)) in *.
  assert (Z : m <> 0) by (apply N.pow_nonzero; discriminate).
  assert (A : forall r, (x + 256 * r) mod (256 * m) = (x + 256 * (r mod m)) mod (256 * m)).
  { intro r. rewrite (N.div_mod r m) at 1 by exact Z. replace (x + 256 * (m * (r / m) + r mod m)) with (x + 256 * (r mod m) + (r / m) * (256 * m)) by ring. apply N.mod_add. lia. }
  rewrite (A (of_le l)), (A (of_le (firstn n l))). now rewrite IHn.
Qed.
Lemma start_pad8 n b : (n <= 8)%nat -> len b <= 8 -> firstn n (pad8 b) = start n b.
Proof.
  intros Hn Lb. unfold pad8, start. unfold len in Lb. rewrite !firstn_app. f_equal.
  assert (F : forall a c, firstn a (repeat 0 c) = repeat 0 (Nat.min a c)). { induction a; intros [|c]; cbn; auto. now rewrite IHa. }
  rewrite !F. f_equal. lia.
Qed.
Theorem C94_prefix wy n a b k k' : (n <= 8)%nat -> byte_key a k -> byte_key b k' -> len a <= 8 -> len b <= 8 -> start n a = start n b ->
  hash_pop wy k mod 2 ^ (8 * N.of_nat n) = hash_pop wy k' mod 2 ^ (8 * N.of_nat n).
Proof.
  intros Hn Ka Kb La Lb E. rewrite (byte_key_hash wy a k Ka), (byte_key_hash wy b k' Kb). unfold hash_slice. destruct (N.ltb_spec 8 (len a)); [lia|]. destruct (N.ltb_spec 8 (len b)); [lia|].
  rewrite of_le_firstn, (of_le_firstn n (pad8 b)), !start_pad8 by assumption. now rewrite E.
Qed.
Print Assumptions C94_prefix.

(** [2 ^ j] buckets: with [j <= 7] the first four bytes of a short entry decide its bucket, with [j <= 15] the first five. *)
Theorem C94_bucket wy f n j a b k k' : (n <= 8)%nat -> byte_key a k -> byte_key b k' -> len a <= 8 -> len b <= 8 -> start n a = start n b ->
  j <= 27 -> j + 25 <= 8 * N.of_nat n -> len (v2_buckets f) = 2 ^ j -> v2_bucket_of f (hash_pop wy k) = v2_bucket_of f (hash_pop wy k').
Proof.
  intros Hn Ka Kb La Lb E J Jn F. unfold v2_bucket_of. rewrite F. apply C94_low_bits; [exact J|]. pose proof (C94_prefix wy n a b k k' Hn Ka Kb La Lb E) as P.
  rewrite mod_pow2_bits in *. intros i Hi. apply P. lia.
Qed.
Print Assumptions C94_bucket.
(** The same for the bits of the index cache. *)
Theorem C94_cache wy f n j a b k k' : (n <= 8)%nat -> byte_key a k -> byte_key b k' -> len a <= 8 -> len b <= 8 -> start n a = start n b ->
  j <= 27 -> j + 25 <= 8 * N.of_nat n -> 8 * len (v2_index_cache f) = 2 ^ j -> v2_cache_of f (hash_pop wy k) = v2_cache_of f (hash_pop wy k').
Proof.
  intros Hn Ka Kb La Lb E J Jn F. unfold v2_cache_of. rewrite F, N.sub_1_r, <- N.ones_equiv, !N.land_ones. apply C94_low_bits; [exact J|]. pose proof (C94_prefix wy n a b k k' Hn Ka Kb La Lb E) as P.
  rewrite mod_pow2_bits in *. intros i Hi. apply P. lia.
Qed.
Print Assumptions C94_cache.
(** Dates of one year fall in the same bucket of any filter with 128 buckets, those that agree on one more digit share a cache bit out of 32768. *)
Example C94_dates wy f : len (v2_buckets f) = 2 ^ 7 -> 8 * len (v2_index_cache f) = 2 ^ 15 ->
  v2_bucket_of f (hash_pop wy (KStr [50; 48; 50; 48; 48; 51; 49; 50])) = v2_bucket_of f (hash_pop wy (KStr [50; 48; 50; 48; 49; 49; 48; 54])) /\
  v2_cache_of f (hash_pop wy (KStr [50; 48; 50; 48; 48; 51; 49; 50])) = v2_cache_of f (hash_pop wy (KStr [50; 48; 50; 48; 48; 53; 48; 54])).
Proof.
  intros B C. split.
  - apply (C94_bucket wy f 4 7 [50; 48; 50; 48; 48; 51; 49; 50] [50; 48; 50; 48; 49; 49; 48; 54]); try exact B; unfold byte_key; auto; try (cbn; lia); vm_compute; discriminate.
  - apply (C94_cache wy f 5 15 [50; 48; 50; 48; 48; 51; 49; 50] [50; 48; 50; 48; 48; 53; 48; 54]); try exact C; unfold byte_key; auto; try (cbn; lia); vm_compute; discriminate.
Qed.

(** A filter of level speed always has a power of two buckets, and a power of two bits in its cache. *)
Theorem C94_speed pr L cap p f : cap <= 9223372036854775808 -> v2_n_bucket0 L cap p <= 9223372036854775808 -> v2_make pr L cap p OSpeed = Ok f ->
  (exists j, len (v2_buckets f) = 2 ^ j /\ (1 <= v2_n_bucket0 L cap p -> 2 ^ j < 2 * v2_n_bucket0 L cap p)) /\
  (exists c, 8 * len (v2_index_cache f) = 2 ^ c /\ (4 < cap -> 2 ^ c < 2 * cap)).
Proof.
  intros Hc Hb E. pose proof (v2_make_created _ _ _ _ _ _ E) as Cr. apply v2_make_dims in E as [Eb (c & Ec & Es)]. rewrite (cr_buckets _ _ _ _ Cr), (cr_cache _ _ _ _ Cr), !len_repeatN.
  destruct (next_pow2_val pr _ Hb) as (j & Hj & Nj & _ & Uj). rewrite Nj in Eb. apply Ok_inj in Eb. rewrite <- Eb. split; [eauto|].
  destruct (next_pow2_val pr _ Hc) as (i & Hi & Ni & Li & Ui). rewrite Ni in Ec. apply Ok_inj in Ec. rewrite Es, <- Ec, byte_cap_pow2 by exact Hi. destruct (N.ltb_spec i 3) as [I|I].
  - exists 3. split; [reflexivity|]. intro. assert (2 ^ i <= 2 ^ 2) by (apply N.pow_le_mono_r; lia). change (2 ^ 2) with 4 in *. lia.
  - exists i. split; [change 8 with (2 ^ 3) at 1; rewrite <- N.pow_add_r; f_equal; lia|]. intro. apply Ui. lia.
Qed.
Print Assumptions C94_speed.

(** Short entries that agree on the bytes that matter share one bucket and one cache bit: the answer depends on the second remainder only, however many buckets there are. *)
Theorem C94_answer wy L f K C ks k n j s : v2_kept wy L f K C -> (forall e, K e <-> In e ks) -> key_ok k -> v2_capacity f <> 0 ->
  (2 <= n <= 8)%nat -> j <= 27 -> j + 25 <= 8 * N.of_nat n -> len (v2_buckets f) = 2 ^ j ->
  v2_index_cache f = [] \/ (ks <> [] /\ (forall e, In e ks -> C e) /\ exists c, c <= 27 /\ c + 25 <= 8 * N.of_nat n /\ 8 * len (v2_index_cache f) = 2 ^ c) ->
  (forall e, In e (k :: ks) -> exists b, byte_key b e /\ bytes_ok b /\ len b <= 8 /\ start n b = s) ->
  let m := N.to_nat 32768 in let t := N.to_nat (v2_n_hash_buck f) in let x := N.to_nat (first_two s mod 32768) in
  v2_contains wy f k = Ok true <-> all_mem (double m t x (rem2 wy k)) (flat_map (double m t x) (map (rem2 wy) ks)) = true.
Proof.
  intros V HK Hk C0 Hn J Jn Fb Fc S m t x. rewrite (C03_v2_exact wy L f K C k V Hk).
  assert (B0 : len (v2_buckets f) <> 0) by (rewrite Fb; apply N.pow_nonzero; discriminate).
  assert (SB : forall e, In e ks -> v2_bucket_of f (hash_pop wy e) = v2_bucket_of f (hash_pop wy k)).
  { intros e He. destruct (S e (or_intror He)) as (b & Kb & _ & Lb & Sb). destruct (S k (or_introl eq_refl)) as (a & Ka & _ & La & Sa).
    apply (C94_bucket wy f n j b a e k); auto; [lia|now rewrite Sb, Sa]. }
  assert (SC : v2_index_cache f = [] \/ exists e, C e /\ v2_cache_of f (hash_pop wy e) = v2_cache_of f (hash_pop wy k)).
  { destruct Fc as [Z|(Ne & Ca & c & Hc & Cn & Ec)]; [now left|right]. destruct ks as [|e ks]; [easy|]. exists e. split; [apply Ca; now left|].
    destruct (S e (or_intror (or_introl eq_refl))) as (b & Kb & _ & Lb & Sb). destruct (S k (or_introl eq_refl)) as (a & Ka & _ & La & Sa).
    apply (C94_cache wy f n c b a e k); auto; [lia|now rewrite Sb, Sa]. }
  assert (FT : forall b, first_two (start n b) = first_two b).
  { intro b. unfold first_two, start. destruct n as [|[|n]]; try lia. destruct b as [|u [|v b]]; cbn; reflexivity. }
  assert (R : forall e, In e (k :: ks) -> rem1 wy e = x).
  { intros e He. destruct (S e He) as (b & Kb & Bb & Lb & Sb). rewrite (C93_first wy b e Kb Bb Lb). unfold x. rewrite <- Sb, FT. reflexivity. }
  assert (P : forall e, In e (k :: ks) -> map N.to_nat (v2_positions wy f (hash_pop wy e)) = double m t x (rem2 wy e)).
  { intros e He. unfold v2_positions. rewrite edh_double. fold m t. fold (rem1 wy e) (rem2 wy e). now rewrite (R e He). }
  rewrite all_mem_spec. split.
  - intros (_ & _ & A & _) i Hi. rewrite <- (P k (or_introl eq_refl)) in Hi. apply in_map_iff in Hi as (q & <- & Hq). destruct (A q Hq) as (e & Ke & _ & He). apply HK in Ke.
    apply in_flat_map. exists (rem2 wy e). split; [now apply in_map|]. rewrite <- (P e (or_intror Ke)). now apply in_map.
  - intro A. split; [exact C0|]. split; [exact B0|]. split; [|exact SC]. intros q Hq. assert (Hi : In (N.to_nat q) (double m t x (rem2 wy k))) by (rewrite <- (P k (or_introl eq_refl)); now apply in_map).
    apply A in Hi. apply in_flat_map in Hi as (r & Hr & Hi). apply in_map_iff in Hr as (e & <- & He). exists e. split; [now apply HK|]. split; [auto|]. rewrite <- (P e (or_intror He)) in Hi.
    apply in_map_iff in Hi as (q' & Eq & Hq'). apply N2Nat.inj in Eq. now subst q'.
Qed.
Print Assumptions C94_answer.

(** A filter of level speed for 32768 entries at 1%, 16 buckets: filled with short entries that share their first five bytes it has a rate above 60%. *)
Theorem C94_refuted : exists cap p f, (forall pr, v2_make pr ref_libm cap p OSpeed = Ok f) /\ (sf_R (sf_of_bits p) < 0.01001)%R /\ len (v2_buckets f) = 2 ^ 4 /\ 8 * len (v2_index_cache f) = 2 ^ 15 /\
  forall x, (60 * 0.01001 < same_first_rate (N.to_nat 32768) (N.to_nat (v2_n_hash_buck f)) x (N.to_nat cap))%R.
Proof.
  destruct (v2_make Release ref_libm 32768 p001 OSpeed) as [f| |] eqn:E; [|vm_compute in E; discriminate E|vm_compute in E; discriminate E].
  exists 32768, p001, f. split; [intro pr; rewrite <- E; destruct pr; vm_compute; reflexivity|].
  assert (S : sf_of_bits p001 = S754_finite false 5764607523034235 (-59)) by (vm_compute; reflexivity).
  split; [rewrite S; unfold sf_R, powerRZ; change (Pos.to_nat 59) with 59%nat; lra|].
  assert (K : len (v2_buckets f) = 16 /\ len (v2_index_cache f) = 4096).
  { assert (T : (let? g := v2_make Release ref_libm 32768 p001 OSpeed in Ok (len (v2_buckets g), len (v2_index_cache g))) = Ok (16, 4096)) by (vm_compute; reflexivity). rewrite E in T. cbn [obind] in T. injection T as -> ->. now split. }
  destruct K as [-> ->]. split; [reflexivity|]. split; [reflexivity|]. intro x.
  apply Rlt_le_trans with (2 := same_first_lower (N.to_nat 32768) _ x (N.to_nat 32768) ltac:(lia)). unfold untouched.
  assert (E32 : INR (N.to_nat 32768) = 32768%R) by (rewrite INR_N; reflexivity). rewrite E32.
  assert (G : ((1 - / 32768) ^ N.to_nat 32768 <= exp (- (1)))%R).
  { replace (- (1))%R with (INR (N.to_nat 32768) * - / 32768)%R by (rewrite E32; lra). rewrite <- exp_pow. apply pow_incr. split; [lra|]. pose proof (exp_ineq1_le (- / 32768)). lra. }
  assert (X : (2.56 <= exp 1)%R).
  { replace 1%R with (INR 8 * / 8)%R by (cbn; lra). rewrite <- exp_pow. apply Rle_trans with ((9 / 8) ^ 8)%R; [lra|]. apply pow_incr. pose proof (exp_ineq1_le (/ 8)). lra. }
  assert (Y : (exp (- (1)) <= / 2.56)%R) by (rewrite exp_Ropp; apply Rinv_le_contravar; lra). lra.
Qed.
Print Assumptions C94_refuted.
(** A filter that holds "hello", asked for "hells": same bucket, same cache bit, so the remainders of the second hashes decide. *)
Example C94_answer_example : let m := N.to_nat 32768 in let t := N.to_nat (v2_n_hash_buck fs1) in let k := KStr [104; 101; 108; 108; 115] in let x := N.to_nat 25960 in
  v2_contains ex_wy fs1 k = Ok true <-> all_mem (double m t x (rem2 ex_wy k)) (flat_map (double m t x) [rem2 ex_wy ka]) = true.
Proof.
  assert (V : v2_kept ex_wy ref_libm fs1 (fun x => x = ka \/ False) (fun x => x = ka \/ False)) by exact (vk_insert _ _ _ _ _ _ _ _ _ (vk_make ex_wy ref_libm Release 4 p001 OSpeed fs0 eq_refl eq_refl fs0_eq) ka_ok fs1_eq).
  assert (Hk : key_ok (KStr [104; 101; 108; 108; 115])) by (cbn; repeat constructor).
  pose proof (C94_answer ex_wy ref_libm fs1 _ _ [ka] (KStr [104; 101; 108; 108; 115]) 4 0 [104; 101; 108; 108] V) as A. cbv zeta in A. change (N.to_nat 25960) with (N.to_nat (first_two [104; 101; 108; 108] mod 32768)). cbv zeta. apply A; clear A; auto; try (vm_compute; discriminate); try lia.
  - intro e. cbn. intuition.
  - right. split; [discriminate|]. split; [cbn; intuition|]. exists 3. split; [lia|]. split; [vm_compute; discriminate|]. vm_compute. reflexivity.
  - intros e [<-|[<-|[]]]; eexists; (split; [unfold byte_key, ka; auto|]); (split; [repeat constructor|]); (split; [vm_compute; discriminate|reflexivity]).
Qed.
