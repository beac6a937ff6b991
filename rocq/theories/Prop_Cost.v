(** Memory requested by the readers (C95) and bits visited by queries and insertions (C96). *)
From Coq Require Import Lia Reals Lra.
From Flocq Require Import Core.Raux Core.Zaux.
From Verif Require Import M_Cost M_RefLibm Spec_Bits Spec_Hash Spec_V2 Spec_V2File Spec_V2Hist Spec_V1 Spec_Libm Spec_Real P_Base P_BitSet P_Hash P_IO P_V2 P_V2Sem P_V2Codec P_V2Make P_V2Size P_V1 P_V1Size
  P_V1Codec P_Codec P_Geom P_FloatDiv P_Real P_RealLibm P_RateFloat P_Cost Ex_Base Ex_V1 Prop_Codec Prop_Size Prop_RateCached Prop_Tail Spec_Exp.
Open Scope N_scope.

(** * C95 Loading requests memory in proportion to the file *)
(** The meter changes nothing: without it the metered reader is the reader. *)
Theorem C95_same pr content partial : snd (bf_load_m pr content partial) = bf_from_reader_partial pr content partial.
Proof. apply bf_load_same. Qed.
Print Assumptions C95_same.
(** A load that succeeds has requested two buffers and at most one byte per byte of the file. *)
Theorem C95_loaded pr content f : bf_from_reader pr content = Ok f -> fst (bf_load_m pr content false) <= 16384 + len content.
Proof.
  intro H. unfold bf_from_reader in H. rewrite <- bf_load_same in H. destruct (bf_load_m pr content false) as [n x] eqn:E. cbn [snd] in H. subst x. exact (bf_load_success pr content n f E).
Qed.
Print Assumptions C95_loaded.
(** A cut file never requests more than the whole one: what an interrupted copy of a filter requests is within the bound of the filter. *)
Theorem C95_cut pr a s f : bf_from_reader pr (a ++ s) = Ok f -> fst (bf_load_m pr a false) <= 16384 + len (a ++ s).
Proof. intro H. apply N.le_trans with (1 := bf_load_mono pr a s false). now apply (C95_loaded pr _ f). Qed.
Print Assumptions C95_cut.
(** [poppy show] and everything else that reads only the header: within the bound for every file, well formed or not. *)
Theorem C95_show pr content : fst (bf_load_m pr content true) <= 16384 + len content.
Proof. exact (bf_load_partial pr content). Qed.
Print Assumptions C95_show.
Lemma mbind_free {A B} (x : outcome A) a (k : A -> metered B) : x = Ok a -> mbind (free x) k = k a.
Proof. intros ->. cbn. now destruct (k a). Qed.
(** The headers of the two formats, with nothing behind. *)
Definition head2 (n : N) : list byte := raw2 ONone zero6 1 p001 7 0 0 [] n [].
Definition head1 (bits : N) : list byte :=
  flag_bytes (flags_new 1) ++ le_bytes 8 1 ++ le_bytes 8 p001 ++ le_bytes 8 7 ++ le_bytes 8 bits ++ le_bytes 8 0.
Lemma next_app r x t : r_rest r = le_bytes 8 x ++ t -> x < two64 -> read_le_u64 r = Ok (x, advance r 8) /\ r_rest (advance r 8) = t.
Proof. intros A B. now apply read_u64_app. Qed.
Ltac next_u64 B := let E := fresh in let B' := fresh in first [destruct (next_app _ _ _ B eq_refl) as [E B']|match goal with H : _ < two64 |- _ => destruct (next_app _ _ _ B H) as [E B'] end]; clear B; rename B' into B; rewrite (mbind_free _ _ _ E); cbv beta iota; clear E.
Lemma head2_load pr n : 0 < n -> n * 4096 <= isize_max -> bf_load_m pr (head2 n) false = (16384 + n * 4096, Err IoError).
Proof.
  intros H1 H2. assert (Hn : n < two64) by (unfold isize_max in H2; unfold two64; lia). set (c := head2 n). assert (B : r_rest (reader_of c) = c) by apply rest_of. unfold c at 2 in B. unfold head2, raw2 in B.
  unfold bf_load_m. destruct (read_flags_app _ {| fl_version := 2; fl_opt := ONone; fl_reserved := zero6 |} _ eq_refl B) as [E B1]. clear B. rename B1 into B.
  unfold new_buffer. cbn [mbind]. rewrite (mbind_free _ _ _ E). cbv beta iota. clear E. cbn [fl_version]. cbn [N.eqb Pos.eqb].
  assert (V : v2_load_m pr (advance (reader_of c) 8) {| fl_version := 2; fl_opt := ONone; fl_reserved := zero6 |} false = (8192 + n * 4096, Err IoError)).
  { unfold v2_load_m, new_buffer. cbn [mbind]. next_u64 B.
    assert (E : read_le_f64 (advance (advance (reader_of c) 8) 8) = Ok (p001, advance (advance (advance (reader_of c) 8) 8) 8)) by (unfold read_le_f64; now destruct (next_app _ _ _ B eq_refl)).
    destruct (next_app _ _ _ B eq_refl) as [_ B1]. rewrite (mbind_free _ _ _ E). cbv beta iota. clear E B. rename B1 into B. change (negb (fpp_in_range p001)) with false. cbv beta iota.
    next_u64 B. next_u64 B. next_u64 B. cbv zeta. change (byte_cap_from_bit_cap 0) with 0.
    match goal with |- context [mbind (mbind (vec_of_m 1 0 0) ?k) _] => match k with context [read_exact _ ?r] =>
      assert (Z : mbind (vec_of_m 1 0 0) k = free (Ok ([], advance r 0))) end end.
    { change (vec_of_m 1 0 0) with (@free (list N) (Ok [])). rewrite (mbind_free _ _ _ eq_refl). cbv beta. change (len []) with 0. match goal with |- context [read_exact 0 ?r] => destruct (read_exact_app r [] _ eq_refl) as [Z _]; change (len []) with 0 in Z; rewrite Z end. reflexivity. }
    rewrite Z. clear Z. rewrite (mbind_free _ _ _ eq_refl). cbv beta iota. change ([] ++ le_bytes 8 n ++ []) with (le_bytes 8 n ++ []) in B.
    match type of B with r_rest ?r = _ => assert (B1 : r_rest (advance r 0) = r_rest r) by (rewrite rest_advance; reflexivity); rewrite <- B1 in B; clear B1 end.
    next_u64 B. change BUCKET_SIZE with 4096. unfold vec_of_m. destruct (N.leb_spec (n * 4096) isize_max) as [_|A]; [|lia]. cbn [mbind].
    rewrite read_many_short. 2:{ rewrite B, N2Nat.id. change (len (@nil byte)) with 0. clear - H1. lia. } cbn [free mbind]. change BUF_CAP with 8192. f_equal. lia. }
  rewrite V. cbn [mbind]. f_equal. change BUF_CAP with 8192. lia.
Qed.
Lemma head1_load pr bits : bits < two64 -> 0 < v1_u64_size bits -> v1_u64_size bits * 8 <= isize_max -> bf_load_m pr (head1 bits) false = (16384 + 8 * v1_u64_size bits, Err IoError).
Proof.
  intros Hn H1 H2. set (c := head1 bits). assert (B : r_rest (reader_of c) = c) by apply rest_of. unfold c at 2 in B. unfold head1 in B.
  unfold bf_load_m. destruct (read_flags_app _ (flags_new 1) _ eq_refl B) as [E B1]. clear B. rename B1 into B.
  unfold new_buffer. cbn [mbind]. rewrite (mbind_free _ _ _ E). cbv beta iota. clear E. change (fl_version (flags_new 1) =? 1) with true. cbv iota.
  assert (V : v1_load_m pr (advance (reader_of c) 8) (flags_new 1) false = (8192 + v1_u64_size bits * 8, Err IoError)).
  { unfold v1_load_m, new_buffer. cbn [mbind]. rewrite <- (app_nil_r (le_bytes 8 0)) in B. next_u64 B.
    assert (E : read_le_f64 (advance (advance (reader_of c) 8) 8) = Ok (p001, advance (advance (advance (reader_of c) 8) 8) 8)) by (unfold read_le_f64; now destruct (next_app _ _ _ B eq_refl)).
    destruct (next_app _ _ _ B eq_refl) as [_ B1]. rewrite (mbind_free _ _ _ E). cbv beta iota. clear E B. rename B1 into B.
    next_u64 B. next_u64 B. next_u64 B. cbv zeta. unfold vec_of_m. destruct (N.leb_spec (v1_u64_size bits * 8) isize_max) as [_|A]; [|lia]. cbn [mbind].
    rewrite read_many_short. 2:{ rewrite B, N2Nat.id. change (len (@nil byte)) with 0. clear - H1. lia. } cbn [obind free mbind]. change BUF_CAP with 8192. f_equal. lia. }
  rewrite V. cbn [mbind]. f_equal. change BUF_CAP with 8192. lia.
Qed.
(** Full statement: memory requested is bounded by the length of the file. False: a header is enough. 56 bytes request any number of
    buckets up to isize::MAX bytes, 48 bytes of version 1 any number of words. *)
Theorem C95_refuted : (forall pr n, 0 < n -> n * 4096 <= isize_max -> exists content, bytes_ok content /\ len content = 56 /\ bf_load_m pr content false = (16384 + n * 4096, Err IoError)) /\
  (forall pr bits, bits < two64 -> 0 < v1_u64_size bits -> exists content, bytes_ok content /\ len content = 48 /\ bf_load_m pr content false = (16384 + 8 * v1_u64_size bits, Err IoError)).
Proof.
  split.
  - intros pr n H1 H2. exists (head2 n). split; [|split; [reflexivity|now apply head2_load]]. unfold head2, raw2. repeat (apply Forall_app; split); try apply le_bytes_ok; small_bytes.
  - intros pr bits H0 H1. exists (head1 bits). split; [|split; [reflexivity|]]. { unfold head1. repeat (apply Forall_app; split); try apply le_bytes_ok; small_bytes. }
    apply head1_load; auto. now apply u64_size_alloc.
Qed.
Print Assumptions C95_refuted.
(** The two formats: a filter with a cache is loaded within the bound; its header alone, changed in one byte, is not. *)
Example C95_example : fst (bf_load_m Debug (v2_write fs2) false) = 16384 + 1 + 4096 /\ snd (bf_load_m Debug (v2_write fs2) false) = Ok (V2 fs2) /\ len (v2_write fs2) = 4153 /\
  fst (bf_load_m Debug (v2_write fs2) true) = 16384 /\ fst (bf_load_m Debug (v1_write e2) false) = 16384 + 8 * len (v1_bitset e2) /\ fst (bf_load_m Debug (head2 (2 ^ 40)) true) = 16384.
Proof. repeat split; vm_compute; reflexivity. Qed.

(** * C96 A query or an insertion visits at most one bit per hash function and one of the cache *)
Theorem C96_same pr wy f k g d : snd (v2_contains_m wy f k) = v2_contains wy f k /\ snd (v2_insert_m pr wy f k) = v2_insert pr wy f k /\
  snd (v1_contains_m g d) = v1_contains_bytes g d /\ snd (v1_insert_m pr g d) = v1_insert_bytes pr g d.
Proof. split; [apply v2_contains_same|]. split; [apply v2_insert_same|]. split; [apply v1_contains_same|apply v1_insert_same]. Qed.
Print Assumptions C96_same.
(** Number of bits of the cache an entry owns. *)
Definition cache_bits (f : v2) : N := if bs_is_empty (v2_index_cache f) then 0 else 1.
(** Both bounds hold for all filters and answers; a positive answer and a successful insertion have visited all of them. *)
Theorem C96_v2_contains wy f k : key_ok k -> v2_n_hash_buck f < two64 -> fst (v2_contains_m wy f k) <= cache_bits f + v2_n_hash_buck f /\
  (v2_contains wy f k = Ok true -> fst (v2_contains_m wy f k) = cache_bits f + v2_n_hash_buck f).
Proof.
  intros Hk Hn. rewrite <- v2_contains_same. pose proof (it_list_len wy f k Hk Hn) as Ln. unfold v2_contains_m, v2_contains_iter_m, cache_bits. change (it_is_init (v2_build_index_iter wy k)) with true. cbn [negb]. cbv zeta.
  destruct (_ =? 0); [cbn; split; [lia|discriminate]|].
  assert (G : forall n x, (if bs_is_empty (v2_index_cache f) then free (Ok true) else spend 1 (bs_get (v2_index_cache f) (v2_cache_index f (it_bucket_hash (it_set_count (v2_build_index_iter wy k) (v2_n_hash_buck f)))))) = (n, x) -> n = (if bs_is_empty (v2_index_cache f) then 0 else 1)).
  { intros n x. destruct (bs_is_empty _); unfold free, spend; congruence. }
  match goal with |- context [mbind ?a _] => destruct a as [c x] end. specialize (G _ _ eq_refl). subst c. set (c := if bs_is_empty _ then 0 else 1).
  destruct x as [[]|e|]; cbn [negb mbind free fst snd]; try (split; [lia|discriminate]). destruct (v2_ibucket _ _) as [ib|e|]; cbn [mbind free fst snd]; try (split; [lia|discriminate]).
  destruct (getN _ ib) as [b|]; cbn [mbind free fst snd]; [|split; [lia|discriminate]]. pose proof (contains_loop_spent b (it_list wy BIT_SET_MOD (it_set_count (v2_build_index_iter wy k) (v2_n_hash_buck f)))) as [A B]. rewrite Ln in A, B.
  destruct (v2_contains_loop_m _ _) as [m r]. cbn [fst snd] in *. split; [lia|]. intro U. destruct r as [v|e|]; try discriminate U. injection U as ->. rewrite (B eq_refl). lia.
Qed.
Print Assumptions C96_v2_contains.
Theorem C96_v2_insert pr wy f k : key_ok k -> v2_n_hash_buck f < two64 -> fst (v2_insert_m pr wy f k) <= cache_bits f + v2_n_hash_buck f /\
  (forall b, snd (v2_insert pr wy f k) = Ok b -> fst (v2_insert_m pr wy f k) = cache_bits f + v2_n_hash_buck f).
Proof.
  intros Hk Hn. rewrite <- v2_insert_same. pose proof (it_list_len wy f k Hk Hn) as Ln. unfold v2_insert_m, v2_insert_iter_m, cache_bits. change (it_is_init (v2_build_index_iter wy k)) with true. cbn [negb]. cbv zeta.
  destruct (_ =? 0); [cbn; split; [lia|discriminate]|]. destruct (v2_ibucket _ _) as [ib|e|]; cbn [fst snd]; try (split; [lia|discriminate]). destruct (getN _ ib) as [b|]; cbn [fst snd]; [|split; [lia|discriminate]].
  pose proof (insert_loop_spent pr (v2_count f =? v2_capacity f) (it_list wy BIT_SET_MOD (it_set_count (v2_build_index_iter wy k) (v2_n_hash_buck f))) b false) as [A B]. rewrite Ln in A, B.
  destruct (v2_insert_loop_m _ _ _ _ _) as [n [b' [new|e|]]]; cbn [fst snd] in *; try (split; [lia|discriminate]). destruct (if new then _ else _) as [cnt|e|]; cbn [fst snd]; try (split; [lia|discriminate]).
  rewrite (B new eq_refl). destruct (bs_is_empty _); cbn [fst snd]; [split; [lia|]; intros; lia|]. destruct (bs_set _ _) as [ca [o|e|]]; cbn [fst snd]; split; try lia; intros; try discriminate; lia.
Qed.
Print Assumptions C96_v2_insert.
Lemma fp_list_len f d : v1_wf f -> len (fp_list (fp_fingerprint (v1_fp f) d)) <= v1_n_hash f /\ (v1_bit_size f <> 0 \/ v1_n_hash f = 0 -> len (fp_list (fp_fingerprint (v1_fp f) d)) = v1_n_hash f).
Proof.
  intro W. rewrite (fp_list_wf f d W). destruct (N.eqb_spec (v1_bit_size f) 0) as [E|E].
  - destruct (N.eqb_spec (v1_n_hash f) 0) as [->|H]; [split; [reflexivity|reflexivity]|]. change (len [Panic]) with 1. split; [lia|]. intros [Q|Q]; contradiction.
  - rewrite len_map. unfold v1_positions, len. rewrite dcso_positions_length, N2Nat.id. split; [lia|reflexivity].
Qed.
Theorem C96_v1 pr f d : v1_wf f -> fst (v1_contains_m f d) <= v1_n_hash f /\ fst (v1_insert_m pr f d) <= v1_n_hash f /\
  (v1_contains_bytes f d = Ok true -> fst (v1_contains_m f d) = v1_n_hash f) /\ (forall b, snd (v1_insert_bytes pr f d) = Ok b -> fst (v1_insert_m pr f d) = v1_n_hash f).
Proof.
  intro W. destruct (fp_list_len f d W) as [Ln Le]. rewrite <- v1_contains_same, <- v1_insert_same.
  assert (Z : forall g : list (outcome N) -> metered bool, (g [] = free (Ok true)) -> (g [Panic] = free Panic) -> True) by auto. clear Z.
  assert (NP : forall b, snd (v1_contains_loop_m b (fp_list (fp_fingerprint (v1_fp f) d))) = Ok true -> len (fp_list (fp_fingerprint (v1_fp f) d)) = v1_n_hash f).
  { intros b. rewrite (fp_list_wf f d W) in *. destruct (N.eqb_spec (v1_bit_size f) 0) as [E|E]; [|intros _; apply Le; now left]. destruct (N.eqb_spec (v1_n_hash f) 0) as [H|H]; [intros _; apply Le; now right|discriminate]. }
  assert (NQ : forall c b x, snd (snd (v1_insert_loop_m pr c b false (fp_list (fp_fingerprint (v1_fp f) d)))) = Ok x -> len (fp_list (fp_fingerprint (v1_fp f) d)) = v1_n_hash f).
  { intros c b x. rewrite (fp_list_wf f d W) in *. destruct (N.eqb_spec (v1_bit_size f) 0) as [E|E]; [|intros _; apply Le; now left]. destruct (N.eqb_spec (v1_n_hash f) 0) as [H|H]; [intros _; apply Le; now right|discriminate]. }
  assert (C : fst (v1_contains_m f d) <= v1_n_hash f /\ (snd (v1_contains_m f d) = Ok true -> fst (v1_contains_m f d) = v1_n_hash f)).
  { unfold v1_contains_m. destruct (v1_bitset f) as [|w ws]; [cbn; split; [lia|discriminate]|]. destruct (contains_loop1_spent (w :: ws) (fp_list (fp_fingerprint (v1_fp f) d))) as [A B]. split; [lia|]. intro T. rewrite (B T). exact (NP _ T). }
  assert (I : fst (v1_insert_m pr f d) <= v1_n_hash f /\ (forall b, snd (snd (v1_insert_m pr f d)) = Ok b -> fst (v1_insert_m pr f d) = v1_n_hash f)).
  { unfold v1_insert_m. destruct (_ =? 0); [cbn; split; [lia|discriminate]|]. cbv zeta. destruct (insert_loop1_spent pr (v1_capacity f <=? v1_count f) (fp_list (fp_fingerprint (v1_fp f) d)) (v1_bitset f) false) as [A B]. specialize (NQ (v1_capacity f <=? v1_count f) (v1_bitset f)).
    destruct (v1_insert_loop_m _ _ _ _ _) as [n [b' [new|e|]]]; cbn [fst snd] in *; try (split; [lia|discriminate]). specialize (B new eq_refl). specialize (NQ new eq_refl). destruct new; [|cbn; split; [lia|intros; lia]].
    destruct (checked_add _ _ _); cbn [fst snd]; split; try lia; intros; try discriminate; lia. }
  intuition.
Qed.
Print Assumptions C96_v1.

(** ** Filters from the constructors *)
Lemma rl_top p : fpp_in_range p = true -> (rl p <= 1022 * ln 2)%R.
Proof.
  intro H. destruct (fpp_real p H) as [_ [A _]]. unfold rl. pose proof (bpow_gt_0 radix2 (-1022)) as P. assert (Q : (ln (bpow radix2 (-1022)) <= ln (sf_R (sf_of_bits p)))%R) by (destruct A as [A|A]; [left; now apply ln_increasing|rewrite A; lra]).
  rewrite ln_bpow in Q. lra.
Qed.
Lemma cap_22 L p : libm_accurate L -> fpp_in_range p = true -> (sf_R (sf_of_bits p) < 1)%R -> (22 <= IZR (Z.of_N (v2_bucket_cap L p)))%R.
Proof.
  intros A R P. destruct (C36_v2_bucket_capacity L p A R P) as (_ & _ & [C|C]); [rewrite C; apply IZR_le; discriminate|]. rewrite eps_48 in C. destruct (fpp_real p R) as [_ [F _]]. pose proof (bpow_gt_0 radix2 (-1022)) as Q.
  rewrite ln_Rinv in C by lra. fold (rl p) in C. pose proof (rl_top p R) as T. pose proof eps_small as [e1 e2]. pose proof ln2_num as [Lo Hi].
  assert (rp : (0 < rl p)%R) by (unfold rl; assert (H : (ln (sf_R (sf_of_bits p)) < ln 1)%R) by (apply ln_increasing; lra); rewrite ln_1 in H; lra).
  assert (O : (22.22 <= 32768 * (ln 2 * ln 2) / rl p)%R). { apply Rmult_le_reg_r with (rl p); [exact rp|]. unfold Rdiv. rewrite Rmult_assoc, Rinv_l by lra. apply Rle_trans with (22.22 * (1022 * ln 2))%R; [apply Rmult_le_compat_l; lra|]. nra. }
  set (o := (32768 * (ln 2 * ln 2) / rl p)%R) in *. clearbody o. assert (G : (21 < IZR (Z.of_N (v2_bucket_cap L p)))%R) by nra. apply lt_IZR in G. apply IZR_le. lia.
Qed.
(** At most 1033 bits per entry at levels none and space: a bucket of the least rate, 2^-1022, takes 22 entries. *)
Theorem C96_created_v2 pr L cap p opt f : libm_accurate L -> libm_ln2 L -> opt = ONone \/ opt = OSpace -> v2_make pr L cap p opt = Ok f -> (sf_R (sf_of_bits p) < 1)%R -> v2_n_hash_buck f <= 1033.
Proof.
  intros A B O E P. apply v2_make_created in E as Cr. apply v2_make_dims in E as D. pose proof (cr_fpp_range _ _ _ _ Cr) as R. assert (K : v2_n_hash_buck f = v2_n_hash0 L p) by (destruct O; subst opt; apply D). rewrite K.
  destruct (fpp_real p R) as [_ [F _]]. pose proof (bpow_gt_0 radix2 (-1022)) as Q. assert (rp : (0 < rl p)%R) by (unfold rl; assert (H : (ln (sf_R (sf_of_bits p)) < ln 1)%R) by (apply ln_increasing; lra); rewrite ln_1 in H; lra).
  destruct (v2_sizing L p A B R rp) as (_ & _ & _ & S2). pose proof (cap_22 L p A R P) as S1. cbv zeta in *. pose proof ln2_num as [_ Hi]. pose proof eps_small as [e1 e2].
  assert (X : (32768 * ln 2 / IZR (Z.of_N (v2_bucket_cap L p)) <= 1032.5)%R) by (apply Rmult_le_reg_r with (IZR (Z.of_N (v2_bucket_cap L p))); [lra|]; unfold Rdiv; rewrite Rmult_assoc, Rinv_l by lra; lra).
  assert (X0 : (0 <= 32768 * ln 2 / IZR (Z.of_N (v2_bucket_cap L p)))%R) by (apply Rmult_le_pos; [pose proof ln2_num; lra|left; apply Rinv_0_lt_compat; lra]).
  set (x := (32768 * ln 2 / _)%R) in *. clearbody x. assert (G : (IZR (Z.of_N (v2_n_hash0 L p)) < 1034)%R) by nra. apply lt_IZR in G. lia.
Qed.
Print Assumptions C96_created_v2.
(** With a cache, at most 654. *)
Theorem C96_created_cached pr L cap p opt f : libm_accurate L -> libm_ln2 L -> libm_exp_accurate L -> 1 <= cap -> cap < 9007199254740992 -> opt = OSpeed \/ opt = OBest ->
  v2_make pr L cap p opt = Ok f -> (sf_R (sf_of_bits p) <= / 2)%R -> v2_n_hash_buck f <= 654.
Proof.
  intros A B E C1 C2 O M P. destruct (cached_hash pr L cap p opt f A B E C1 C2 O M P) as (z & _ & [_ K] & [_ _] & _). pose proof (cap_22 L p A (cr_fpp_range _ _ _ _ (v2_make_created _ _ _ _ _ _ M)) ltac:(lra)) as c22. destruct (C77_hash_functions pr L cap p opt f A B E C1 C2 O M P) as [_ [_ H]]. cbv zeta in H.
  assert (X : (32768 / IZR (Z.of_N (v2_bucket_cap L p)) <= 1489.5)%R) by (apply Rmult_le_reg_r with (IZR (Z.of_N (v2_bucket_cap L p))); [lra|]; unfold Rdiv; rewrite Rmult_assoc, Rinv_l by lra; lra).
  assert (G : (IZR (Z.of_N (v2_n_hash_buck f)) < 655)%R) by lra. apply lt_IZR in G. lia.
Qed.
Print Assumptions C96_created_cached.
(** At most 1023 for version 1. *)
Theorem C96_created_v1 L cap p f : libm_accurate L -> libm_ln2 L -> 1 <= cap -> cap < two64 -> v1_with_capacity L cap p = Ok f -> v1_n_hash f <= 1023.
Proof.
  intros A B C1 C2 E. apply v1_make_created in E as Cr. rewrite (c1_n_hash _ _ _ _ Cr). destruct (C36_v1_size L cap p f A C2 E) as [S _]. cbv zeta in S. pose proof (c1_fpp_range _ _ _ _ Cr) as R. rewrite (optimal_rl cap p R), eps_48 in S.
  destruct (N.eq_dec (v1_bit_size f) 0) as [Z|NZ]; [rewrite (c1_bit_size _ _ _ _ Cr) in Z; rewrite ?(c1_bit_size _ _ _ _ Cr), Z, bu_k_zero; discriminate|].
  assert (b64 : v1_bit_size f < two64) by (rewrite (c1_bit_size _ _ _ _ Cr); unfold bu_bit_size; apply f_to_u64_lt). 
  destruct (k_real L (v1_bit_size f) cap B ltac:(lia) b64 C1 C2) as (Q & [_ Q2] & Ek). rewrite ?(c1_bit_size _ _ _ _ Cr) in *.
  set (b := bu_bit_size L cap p) in *. set (c := IZR (Z.of_N cap)) in *. assert (c1 : (1 <= c)%R) by (apply IZR_le; lia). pose proof (rl_top p R) as T. pose proof (rl_nonneg p R) as T0. pose proof ln2_num as [Lo Hi]. pose proof eps_small as [e1 e2].
  assert (X : (ln 2 * IZR (Z.of_N b) / c <= 1022 * (1 + 32 * eps))%R).
  { apply Rmult_le_reg_r with c; [lra|]. unfold Rdiv. rewrite Rmult_assoc, Rinv_l, Rmult_1_r by lra. apply Rle_trans with (ln 2 * (c * rl p / s2 * (1 + 32 * eps)))%R; [apply Rmult_le_compat_l; [lra|exact S]|].
    replace (ln 2 * (c * rl p / s2 * (1 + 32 * eps)))%R with (c * (rl p / ln 2) * (1 + 32 * eps))%R by (unfold s2; field; lra). replace (1022 * (1 + 32 * eps) * c)%R with (c * 1022 * (1 + 32 * eps))%R by ring. apply Rmult_le_compat_r; [lra|]. apply Rmult_le_compat_l; [lra|].
    apply Rmult_le_reg_r with (ln 2); [lra|]. unfold Rdiv. rewrite Rmult_assoc, Rinv_l by lra. lra. }
  assert (G : (Q <= 1023)%R) by (apply Rle_trans with (1 := Q2); nra). assert (Zceil Q <= 1023)%Z by (apply Zceil_glb; exact G). lia.
Qed.
Print Assumptions C96_created_v1.
(** ** Filters from files *)
(** One bucket of ones, one word of ones, [n] hash functions. *)
Definition ones2 (n : N) : v2 :=
  {| v2_flags := {| fl_version := 2; fl_opt := ONone; fl_reserved := zero6 |}; v2_index_cache := []; v2_n_buckets := 1; v2_cache_byte_size := 0; v2_capacity := 1; v2_fpp := p001;
     v2_n_hash_buck := n; v2_count := 0; v2_buckets := [repeat 255 (N.to_nat 4096)]; v2_data := [] |}.
Definition ones1 (n : N) : v1 :=
  {| v1_flags := flags_new 1; v1_bitset := [u64_max]; v1_capacity := 1; v1_fpp := p001; v1_n_hash := n; v1_bit_size := 64; v1_count := 0; v1_data := []; v1_fp := fp_new n 64 |}.
Lemma ones2_file n : n < two64 -> v2_file (v2_image (flag_bytes (v2_flags (ones2 n))) (ones2 n) 0) (ones2 n) 0.
Proof.
  intro H. constructor; try reflexivity; try exact H; try (vm_compute; reflexivity); try (vm_compute; discriminate). repeat constructor.
Qed.
Lemma ones1_file n : n < two64 -> v1_file (v1_image (flag_bytes (v1_flags (ones1 n))) (ones1 n)) (ones1 n).
Proof. intro H. constructor; try reflexivity; try exact H. repeat constructor. Qed.
Lemma ones2_contains wy n k : n < two64 -> key_ok k -> v2_contains wy (ones2 n) k = Ok true.
Proof.
  intros H Hk. unfold v2_contains, v2_contains_iter. change (it_is_init (v2_build_index_iter wy k)) with true. cbn [negb ones2 v2_capacity v2_index_cache v2_n_hash_buck]. cbv zeta. cbn [N.eqb bs_is_empty obind].
  change (bs_is_empty (@nil byte)) with true. cbv iota. rewrite v2_ibucket_spec. cbn [obind ones2 v2_buckets]. change (len [repeat 255 (N.to_nat 4096)]) with 1. rewrite N.mod_1_r. cbn [N.eqb negb obind]. change (getN [repeat 255 (N.to_nat 4096)] 0) with (Some (repeat 255 (N.to_nat 4096))).
  cbv iota. match goal with |- context [v2_contains_loop _ ?x] => assert (F : forall i, In i x -> i < 32768) by (intros i; apply it_list_lt); induction x as [|i l IH] end; [reflexivity|].
  cbn [v2_contains_loop]. rewrite full_get by (apply N.lt_le_trans with (1 := F i (or_introl eq_refl)); discriminate). cbn [obind]. apply IH. intros j Hj. apply F. now right.
Qed.
Lemma ones1_contains n d : n < two64 -> v1_contains_bytes (ones1 n) d = Ok true.
Proof.
  intro H. unfold v1_contains_bytes. cbn [v1_bitset ones1 v1_fp]. rewrite fp_list_spec by (auto; discriminate). assert (F : forall i, In i (dcso_positions n 64 d) -> i < 64) by (intros i; apply dcso_positions_lt; discriminate).
  induction (dcso_positions n 64 d) as [|i l IH]; [reflexivity|]. cbn [map v1_contains_loop]. assert (Hi : i < 64) by (apply F; now left). rewrite v1_get_spec. change (len [u64_max]) with 1. destruct (N.ltb_spec i (64 * 1)) as [_|Q]; [|lia].
  assert (B : bit 64 [u64_max] i = true). { rewrite bit_getN. rewrite N.div_small, N.mod_small by exact Hi. change (getN [u64_max] 0) with (Some u64_max). change u64_max with (N.ones 64). now apply N.ones_spec_low. }
  rewrite B. cbn [obind]. apply IH. intros j Hj. apply F. now right.
Qed.
(** Full statement: the visits are bounded for every filter that can be loaded. False: the number of hash functions of a file is not
    checked. A file of 4152 bytes, or 56 of version 1, makes any query visit any number of bits below 2^64. *)
Theorem C96_refuted : forall pr wy n k d, n < two64 -> key_ok k ->
  (exists content f, bytes_ok content /\ len content = 4152 /\ v2_from_reader pr content = Ok f /\ v2_contains wy f k = Ok true /\ fst (v2_contains_m wy f k) = n) /\
  (exists content f, bytes_ok content /\ len content = 56 /\ v1_from_reader pr content = Ok f /\ v1_contains_bytes f d = Ok true /\ fst (v1_contains_m f d) = n).
Proof.
  intros pr wy n k d H Hk. split.
  - exists (v2_image (flag_bytes (v2_flags (ones2 n))) (ones2 n) 0), (ones2 n). split. { unfold v2_image, v2_head. repeat (apply Forall_app; split); try apply le_bytes_ok; small_bytes. }
    split. { unfold v2_image, v2_head. rewrite !len_app, !le_bytes_len. reflexivity. } split; [exact (v2_load_complete pr _ _ 0 (ones2_file n H))|]. pose proof (ones2_contains wy n k H Hk) as C. split; [exact C|].
    destruct (C96_v2_contains wy (ones2 n) k Hk H) as [_ E]. exact (E C).
  - exists (v1_image (flag_bytes (v1_flags (ones1 n))) (ones1 n)), (ones1 n). pose proof (ones1_file n H) as F. split. { unfold v1_image. cbn [ones1 v1_bitset map concat v1_data]. rewrite !app_nil_r. repeat (apply Forall_app; split); try apply le_bytes_ok; small_bytes. }
    split. { unfold v1_image. rewrite !len_app, !le_bytes_len. reflexivity. } split; [exact (v1_load_complete pr _ _ F)|]. pose proof (ones1_contains n d H) as C. split; [exact C|].
    rewrite <- v1_contains_same in C. unfold v1_contains_m in *. cbn [v1_bitset ones1] in *. destruct (contains_loop1_spent [u64_max] (fp_list (fp_fingerprint (v1_fp (ones1 n)) d))) as [_ E]. rewrite (E C). cbn [v1_fp ones1].
    rewrite fp_list_spec by (auto; discriminate). rewrite len_map. unfold len. now rewrite dcso_positions_length, N2Nat.id.
Qed.
Print Assumptions C96_refuted.
(** Level speed at 1%: 5 hash functions and the cache; an absent key mostly stops at the cache. Version 1: 7, and often 1. *)
Example C96_example : v2_n_hash_buck fs2 = 5 /\ fst (v2_contains_m ex_wy fs2 ka) = 6 /\ fst (v2_insert_m Debug ex_wy fs1 kb) = 6 /\ fst (v2_contains_m ex_wy fs2 kc) = 1 /\
  v1_n_hash e2 = 7 /\ fst (v1_contains_m e2 da) = 7 /\ fst (v1_insert_m Debug e1 db) = 7 /\ fst (v1_contains_m e2 dc) = 1.
Proof. repeat split; vm_compute; reflexivity. Qed.
(** The hypotheses of the bounds for the constructors hold together: filters for a million entries at 1%. *)
Example C96_created_example : exists f g h, v2_make Release real_libm 1000000 p001 ONone = Ok f /\ v2_n_hash_buck f <= 1033 /\ v1_with_capacity real_libm 1000000 p001 = Ok g /\ v1_n_hash g <= 1023 /\
  v2_make Release real_libm 1000000 p001 OSpeed = Ok h /\ v2_n_hash_buck h <= 654.
Proof.
  destruct real_libm_meets_all as (A & B & _ & C). pose proof real_libm_exp as D. destruct (v1_make_total real_libm 1000000 p001 ltac:(vm_compute; reflexivity)) as [g G].
  destruct (make_succeeds Release real_libm 1000000 p001 ONone B C ltac:(vm_compute; reflexivity) ltac:(lia)) as [f F]. destruct (make_succeeds Release real_libm 1000000 p001 OSpeed B C ltac:(vm_compute; reflexivity) ltac:(lia)) as [h H].
  pose proof p001_R as [_ P]. assert (P1 : (sf_R (sf_of_bits p001) < 1)%R) by lra. assert (C1 : 1 <= 1000000) by discriminate.
  exists f, g, h. split; [exact F|]. split; [exact (C96_created_v2 _ _ _ _ _ _ A (proj1 B) (or_introl eq_refl) F P1)|]. split; [exact G|]. split; [exact (C96_created_v1 _ _ _ _ A (proj1 B) C1 eq_refl G)|].
  split; [exact H|]. exact (C96_created_cached _ _ _ _ _ _ A (proj1 B) D C1 eq_refl (or_introl eq_refl) H P).
Qed.
