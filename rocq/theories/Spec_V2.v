(** Specification vocabulary for v2 filters: a filter seen as a set of bucket positions and a set of cache positions. *)
From Verif Require Import M_V2 Spec_Bits Spec_Hash.
Open Scope N_scope.

(** Position [i] of bucket number [b]; position [i] of the index cache. *)
Definition v2_bit (f : v2) (b i : N) : bool :=
  match getN (v2_buckets f) b with Some bk => bit 8 bk i | None => false end.
Definition v2_cbit (f : v2) (i : N) : bool := bit 8 (v2_index_cache f) i.

(** The bucket, the bucket positions and the cache position that a key hash selects in filter [f]. *)
Definition v2_bucket_of (f : v2) (h : N) : N := xorshift_star h mod len (v2_buckets f).
Definition v2_cache_of (f : v2) (h : N) : N := N.land (xorshift_star h) (8 * len (v2_index_cache f) - 1).
Definition v2_positions (wy : hasher) (f : v2) (h : N) : list N :=
  edh_positions (v2_n_hash_buck f) h (wy_hash_one wy (be_bytes 8 h)).

(** Every position of hash [h] is set in the bucket it selects. *)
Definition v2_covered (wy : hasher) (f : v2) (h : N) : bool :=
  forallb (v2_bit f (v2_bucket_of f h)) (v2_positions wy f h).
(** The cache lets hash [h] through. *)
Definition v2_cache_hit (f : v2) (h : N) : bool :=
  match v2_index_cache f with [] => true | _ => v2_cbit f (v2_cache_of f h) end.

(** Everything but the bits, the count and the data. *)
Definition v2_same_frame (f g : v2) : Prop :=
  v2_flags g = v2_flags f /\ v2_n_buckets g = v2_n_buckets f /\ v2_cache_byte_size g = v2_cache_byte_size f /\
  v2_capacity g = v2_capacity f /\ v2_fpp g = v2_fpp f /\ v2_n_hash_buck g = v2_n_hash_buck f /\
  len (v2_buckets g) = len (v2_buckets f) /\ len (v2_index_cache g) = len (v2_index_cache f).

(** Same parameters and the same bits everywhere (count and data may differ). *)
Definition v2_same_content (f g : v2) : Prop :=
  v2_same_frame f g /\ v2_buckets g = v2_buckets f /\ v2_index_cache g = v2_index_cache f.

(** Every bucket still has a zero bit. *)
Definition v2_unsaturated (f : v2) : Prop :=
  forall k, k < len (v2_buckets f) -> exists i, i < 32768 /\ v2_bit f k i = false.

(** The six reserved header bytes. *)
Definition bytes_reserved (l : list N) : Prop := length l = 6%nat /\ words_ok 8 l.

(** Representation invariant of every created or fully loaded filter: field ranges, 4096-byte buckets, and header
    fields that agree with the vectors. *)
Record v2_wf (f : v2) : Prop := {
  wf_version : fl_version (v2_flags f) = 2;
  wf_reserved : bytes_reserved (fl_reserved (v2_flags f));
  wf_capacity : v2_capacity f < two64;
  wf_fpp : v2_fpp f < two64;
  wf_fpp_range : fpp_in_range (v2_fpp f) = true;
  wf_n_hash : v2_n_hash_buck f < two64;
  wf_count : v2_count f < two64;
  wf_buckets : Forall (fun b => length b = N.to_nat 4096 /\ words_ok 8 b) (v2_buckets f);
  wf_n_buckets : v2_n_buckets f = len (v2_buckets f);
  wf_buckets_len : len (v2_buckets f) * 4096 <= isize_max;
  wf_cache : words_ok 8 (v2_index_cache f);
  wf_cache_size : v2_cache_byte_size f = len (v2_index_cache f);
  wf_cache_cap : byte_cap_from_bit_cap (8 * len (v2_index_cache f)) = len (v2_index_cache f);
  wf_cache_len : 8 * len (v2_index_cache f) < two64;
  wf_data : words_ok 8 (v2_data f)
}.

(** A filter with room for entries has a bucket to put them in: true of every created filter, but a file may claim a
    capacity and hold no bucket. *)
Definition v2_usable (f : v2) : Prop := v2_capacity f <> 0 -> len (v2_buckets f) <> 0.

(** The entries estimated in each bucket, and the entries estimated common to two filters in each pair of buckets. *)
Definition v2_estimates (L : libm) (f : v2) : list N :=
  map (fun b => estimate_count L bucket_bit_size (bs_count_ones b) (v2_n_hash_buck f)) (v2_buckets f).
Definition common_estimates (L : libm) (a b : v2) : list N :=
  map (fun p => estimate_count L bucket_bit_size (sumN (map (fun q => count_ones (N.land (fst q) (snd q))) (combine (fst p) (snd p)))) (v2_n_hash_buck a))
      (combine (v2_buckets a) (v2_buckets b)).
