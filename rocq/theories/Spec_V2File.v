(** The v2 file format, stated without reference to the reader or the writer:
    8 flag bytes, five little-endian words (capacity, fpp, hash count, count, cache size in bits), the cache bytes, the
    number of buckets, the buckets of 4096 bytes, then the attached data up to the end of the file. *)
From Verif Require Import M_V2 Spec_Bits.
Open Scope N_scope.

Definition v2_head (f : v2) : list byte :=
  le_bytes 8 (v2_capacity f) ++ le_bytes 8 (v2_fpp f) ++ le_bytes 8 (v2_n_hash_buck f) ++ le_bytes 8 (v2_count f).
Definition v2_image (fb : list byte) (f : v2) (cache_bits : N) : list byte :=
  fb ++ v2_head f ++ le_bytes 8 cache_bits ++ v2_index_cache f ++ le_bytes 8 (len (v2_buckets f))
     ++ concat (v2_buckets f) ++ v2_data f.

(** [content] is a valid v2 file holding filter [f]. *)
Record v2_file (content : list byte) (f : v2) (cache_bits : N) : Prop := {
  vf_bytes : content = v2_image (fl_version (v2_flags f) :: opt_to_u8 (fl_opt (v2_flags f)) :: fl_reserved (v2_flags f)) f cache_bits;
  vf_version : fl_version (v2_flags f) = 2;
  vf_reserved : length (fl_reserved (v2_flags f)) = 6%nat;
  vf_capacity : v2_capacity f < two64;
  vf_fpp : v2_fpp f < two64;
  vf_fpp_range : fpp_in_range (v2_fpp f) = true;
  vf_n_hash : v2_n_hash_buck f < two64;
  vf_count : v2_count f < two64;
  vf_cache_bits : cache_bits < two64;
  vf_cache : len (v2_index_cache f) = byte_cap_from_bit_cap cache_bits;
  vf_cache_size : v2_cache_byte_size f = len (v2_index_cache f);
  vf_cache_len : len (v2_index_cache f) <= isize_max;
  vf_n_buckets : v2_n_buckets f = len (v2_buckets f);
  vf_buckets : Forall (fun b => length b = N.to_nat 4096) (v2_buckets f);
  vf_buckets_len : len (v2_buckets f) * 4096 <= isize_max
}.
