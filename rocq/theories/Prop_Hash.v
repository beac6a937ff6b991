(** Keys, hash functions and bit positions (C24 to C27, C29, C30). *)
From Coq Require Import Lia.
From Verif Require Import M_V2 M_RefLibm Spec_Bits Spec_Hash Spec_V2 Spec_V2Hist P_Base P_Hash P_V2 P_HashMod P_V2Sem P_V2Hist P_V2Props Ex_Base.
Open Scope N_scope.

(** * C24 Byte-like key types are interchangeable *)
(** Whatever the filter (created, loaded, partially loaded, corrupt) and the form under which the bytes are given, insert
    and contains do the same thing, which is also what insert_bytes, contains_bytes and the old slice path do. *)
Theorem C24_same_calls pr wy f b k : byte_key b k ->
  v2_insert pr wy f k = v2_insert_bytes pr wy f b /\ v2_insert_bytes_old pr wy f b = v2_insert_bytes pr wy f b /\
  v2_contains wy f k = v2_contains_bytes wy f b /\ v2_contains_bytes_old wy f b = v2_contains_bytes wy f b.
Proof.
  intro H. unfold v2_insert, v2_insert_bytes, v2_insert_bytes_old, v2_contains, v2_contains_bytes, v2_contains_bytes_old, v2_insert.
  rewrite (byte_key_build wy b k H). split; [reflexivity|]. split; [|split; reflexivity].
  reflexivity.
Qed.
Print Assumptions C24_same_calls.
(** Inserted in one form, found in any other form, through any later history. *)
Theorem C24_found wy L f K b k k' : byte_key b k -> byte_key b k' -> v2_hist wy L f K -> K k -> v2_contains wy f k' = Ok true.
Proof.
  intros H H' E Kk. destruct (C24_same_calls Debug wy f b k' H') as (_ & _ & -> & _). rewrite <- (proj1 (proj2 (proj2 (C24_same_calls Debug wy f b k H)))).
  exact (hist_contains wy L f K k E Kk).
Qed.
Print Assumptions C24_found.
Example C24_example : v2_hist ex_wy ref_libm fs2 (fun x => x = kb \/ x = ka \/ False) /\
  v2_contains ex_wy fs2 (KVec [112; 111; 112; 112; 121; 32; 102; 105; 108; 116; 101; 114]) = Ok true /\
  v2_contains ex_wy fs2 (KString [104; 101; 108; 108; 111]) = Ok true /\ v2_contains ex_wy fs2 (KString [104; 101]) = Ok false.
Proof. split; [exact fs2_hist|]. split; [vm_compute; reflexivity|]. split; vm_compute; reflexivity. Qed.

(** * C25 Short keys: no hash collisions except zero padding *)
(** Keys of at most 8 bytes get equal hashes exactly when the longer one is the shorter one followed by zero bytes. *)
Theorem C25_short_keys wy a b : bytes_ok a -> bytes_ok b -> len a <= len b -> len b <= 8 ->
  (hash_pop wy (KSlice a) = hash_pop wy (KSlice b) <-> exists n, b = a ++ repeat 0 n).
Proof.
  intros Ha Hb L L8. cbn [hash_pop]. rewrite short_hash by (auto; lia). unfold len in *. split.
  - intro E. exists (length b - length a)%nat. apply pad8_inv; auto. lia.
  - intros [n ->]. symmetry. apply pad8_zeros. rewrite app_length, repeat_length in *. lia.
Qed.
Print Assumptions C25_short_keys.
Theorem C25_equal_length wy a b : bytes_ok a -> bytes_ok b -> length a = length b -> len a <= 8 ->
  hash_pop wy (KSlice a) = hash_pop wy (KSlice b) -> a = b.
Proof.
  intros Ha Hb E L H. apply pad8_same_length; auto. apply (short_hash wy); auto. unfold len in *. lia.
Qed.
Print Assumptions C25_equal_length.
(** A key and the key with zero bytes appended (8 bytes in total at most) are indistinguishable in every filter. *)
Theorem C25_zero_padding pr wy f a n : (length a + n <= 8)%nat ->
  v2_insert_bytes pr wy f (a ++ repeat 0 n) = v2_insert_bytes pr wy f a /\
  v2_contains_bytes wy f (a ++ repeat 0 n) = v2_contains_bytes wy f a.
Proof.
  intro L. assert (E : v2_build_index_iter wy (KSlice (a ++ repeat 0 n)) = v2_build_index_iter wy (KSlice a)).
  { unfold v2_build_index_iter, it_init_with_hashable. f_equal. cbn [hash_pop]. unfold hash_slice.
    rewrite pad8_zeros by auto. unfold len. rewrite app_length, repeat_length.
    destruct (N.ltb_spec 8 (N.of_nat (length a + n))); [lia|]. destruct (N.ltb_spec 8 (N.of_nat (length a))); [lia|]. reflexivity. }
  unfold v2_insert_bytes, v2_contains_bytes, v2_insert, v2_contains. now rewrite E.
Qed.
Print Assumptions C25_zero_padding.
Example C25_example wy : hash_pop wy (KSlice [5]) = hash_pop wy (KSlice [5; 0; 0]) /\ hash_pop wy (KSlice [5]) <> hash_pop wy (KSlice [0; 5]) /\
  hash_pop wy (KSlice [1;2;3;4;5;6;7;8]) <> hash_pop wy (KSlice [1;2;3;4;5;6;7]).
Proof. split; [reflexivity|]. split; discriminate. Qed.

(** * C26 Prepared iterators equal direct calls *)
(** A prepared iterator is any iterator accepted by is_init; the caller keeps a copy, so it can be used on any number of
    filters. On each of them it acts as the direct call on the key it was prepared from. *)
Theorem C26_prepared pr wy f k it : it_is_init it = true -> it_h1 it = hash_pop wy k ->
  v2_insert_iter pr wy f it = v2_insert pr wy f k /\
  v2_contains wy f k = unwrap (v2_contains_iter wy f it) /\
  (v2_wf f -> v2_usable f -> key_ok k -> v2_contains_iter wy f it = v2_contains wy f k).
Proof.
  intros H E. split; [exact (insert_iter_h1 pr wy f it (v2_build_index_iter wy k) H eq_refl E)|].
  rewrite (contains_iter_h1 wy f it (v2_build_index_iter wy k) H eq_refl E). split; [reflexivity|].
  intros W U Hk. unfold v2_contains. rewrite v2_contains_iter_sem; auto; [|apply (key_init wy k Hk)].
  destruct (N.eqb_spec (v2_capacity f) 0); [reflexivity|]. destruct (negb _); [reflexivity|].
  destruct (N.eqb_spec (len (v2_buckets f)) 0); [destruct (U n); auto|reflexivity].
Qed.
Print Assumptions C26_prepared.
(** build_index_iter prepares; using up an iterator that has no count yet leaves it prepared; taking a value from it, or
    never preparing it, makes every filter refuse it and keeps the filter as it was. *)
Lemma C26_build wy k : it_is_init (v2_build_index_iter wy k) = true /\ it_h1 (v2_build_index_iter wy k) = hash_pop wy k.
Proof. split; reflexivity. Qed.
Theorem C26_unprepared pr wy f it : it_is_init it = false ->
  v2_insert_iter pr wy f it = (f, Err UninitIter) /\ v2_contains_iter wy f it = Err UninitIter.
Proof. intro H. unfold v2_insert_iter, v2_contains_iter. rewrite H. split; reflexivity. Qed.
Print Assumptions C26_unprepared.
Theorem C26_used wy M it x it' : it_count it < two64 -> it_next wy M it = (x, it') ->
  match x with Some _ => it_is_init it' = false | None => it' = it end.
Proof. intros Hc H. destruct x; [exact (next_used wy M it n it' Hc H)|exact (next_none wy M it it' H)]. Qed.
Print Assumptions C26_used.
Example C26_example : it_is_init it_new = false /\ let it := v2_build_index_iter ex_wy kb in
  snd (v2_insert_iter Release ex_wy fn1 it) = Ok true /\ snd (v2_insert_iter Release ex_wy f70 it) = Ok true /\
  v2_contains_iter ex_wy fs2 it = Ok true /\
  it_is_init (snd (it_next ex_wy 32768 (it_set_count it 3))) = false.
Proof. split; [reflexivity|]. cbv zeta. split; [vm_compute; reflexivity|]. split; [vm_compute; reflexivity|]. split; vm_compute; reflexivity. Qed.

(** * C27 FNV-1 conformance and streaming *)
(** Whatever the way the data is cut into write calls, the digest is the standard 64-bit FNV-1 of the whole. *)
Theorem C27_fnv1 pieces : fold_left fnv_write pieces FNV_OFFSET = fnv1 (concat pieces).
Proof.
  enough (forall l s, fold_left fnv_write l s = fnv_write s (concat l)) as E.
  { rewrite E. exact (fnv_hash_one_spec (concat pieces)). }
  induction l as [|a l IH]; intro s; cbn [fold_left concat]; [reflexivity|]. rewrite IH, fnv_write_app. reflexivity.
Qed.
Print Assumptions C27_fnv1.
Theorem C27_fnv1_one bytes : fnv_hash_one bytes = fnv1 bytes.
Proof. exact (fnv_hash_one_spec bytes). Qed.
Print Assumptions C27_fnv1_one.
(** Published value (poppy/src/hash/fnv.rs:66-83): "Hello, World!". *)
Example C27_example : fnv1 [72;101;108;108;111;44;32;87;111;114;108;100;33] = 8889723880822884486 /\
  fold_left fnv_write [[72;101;108];[108;111;44;32;87;111;114;108;100];[33]] FNV_OFFSET = 8889723880822884486.
Proof. split; vm_compute; reflexivity. Qed.

(** * C29 v2 positions follow enhanced double hashing *)
(** For every key, hash count [c] and modulus [M] (power of two or not), the iterator yields exactly [c] values, and
    value number [i] is the enhanced double hash reduced mod M. *)
Theorem C29_iterator wy M k c : M <> 0 -> key_ok k -> c < two64 ->
  let h1 := hash_pop wy k in let h2 := wy_hash_one wy (be_bytes 8 h1) in
  it_list wy M (it_set_count (v2_build_index_iter wy k) c)
  = map (fun i => ((h1 + N.of_nat i * h2 + (N.of_nat i ^ 3 - N.of_nat i) / 6) mod 2 ^ 64) mod M) (seq 0 (N.to_nat c)).
Proof. intros HM Hk Hc. exact (it_list_mod wy M (v2_build_index_iter wy k) c HM eq_refl (hash_pop_lt wy k Hk) Hc). Qed.
Print Assumptions C29_iterator.
(** In a filter: the key is examined in one bucket, at exactly n_hash_buck positions, all below 32768; contains answers
    true exactly when the cache lets the key through and all of them are set. *)
Theorem C29_filter wy L f k : v2_reach wy L f -> v2_usable f -> key_ok k ->
  let h1 := hash_pop wy k in
  let l := map (fun i => edh_hash h1 (wy_hash_one wy (be_bytes 8 h1)) (N.of_nat i) mod 32768) (seq 0 (N.to_nat (v2_n_hash_buck f))) in
  len l = v2_n_hash_buck f /\ (forall i, In i l -> i < 32768) /\
  v2_contains wy f k = Ok (negb (v2_capacity f =? 0) && v2_cache_hit f h1 && forallb (v2_bit f (v2_bucket_of f h1)) l).
Proof.
  intros R U Hk. cbv zeta. pose proof (reach_wf _ _ _ R) as W. split; [|split].
  - rewrite len_map. unfold len. rewrite seq_length. apply N2Nat.id.
  - intros i H. apply in_map_iff in H as [j [<- _]]. apply N.mod_lt. discriminate.
  - rewrite v2_contains_sem by auto. destruct (N.eqb_spec (v2_capacity f) 0); [reflexivity|]. cbn [negb andb].
    destruct (v2_cache_hit f (hash_pop wy k)); [|reflexivity]. cbn [negb andb].
    destruct (N.eqb_spec (len (v2_buckets f)) 0); [destruct (U n); auto|]. reflexivity.
Qed.
Print Assumptions C29_filter.
Example C29_example : v2_reach ex_wy ref_libm fn2 /\ v2_usable fn2 /\ len (v2_positions ex_wy fn2 (hash_pop ex_wy ka)) = 7 /\
  it_list ex_wy 1000 (it_set_count (v2_build_index_iter ex_wy ka) 4) = [32; 201; 371; 927].
Proof. split; [exists (fun x => x = kb \/ x = ka \/ False); exact fn2_hist|]. split; [intros _; vm_compute; discriminate|]. split; vm_compute; reflexivity. Qed.

(** * C30 Bucket scrambling loses no information *)
(** A permutation of the 64-bit values: injective and onto. *)
Theorem C30_injective x y : x < two64 -> y < two64 -> xorshift_star x = xorshift_star y -> x = y.
Proof. intros Hx Hy E. rewrite <- (xs_unmix_l x Hx), <- (xs_unmix_l y Hy), E. reflexivity. Qed.
Print Assumptions C30_injective.
Theorem C30_onto y : y < two64 -> exists x, x < two64 /\ xorshift_star x = y.
Proof. intro Hy. exists (xs_unmix y). split; [exact (xs_unmix_lt y)|exact (xs_unmix_r y Hy)]. Qed.
Print Assumptions C30_onto.
Theorem C30_range x : xorshift_star x < two64.
Proof. apply w64_lt. Qed.
Print Assumptions C30_range.
(** Reference value of the xorshift* variant, computed by hand from v2.rs:30-36. *)
Example C30_example : xorshift_star 1 = 14229403333805649181 /\ xorshift_star 0 = 0.
Proof. split; vm_compute; reflexivity. Qed.
