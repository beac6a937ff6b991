(** The number of entries that a Bloom filter with some bits set is expected to hold. *)
From Coq Require Import Reals.
From Verif Require Import M_V1 M_V2 Spec_Bits Spec_V1 Spec_V2.

(** [x] of [m] bits set by [k] hash functions: -(m/k) ln(1 - x/m). *)
Definition ideal_count (m x k : N) : R := (- (IZR (Z.of_N m) / IZR (Z.of_N k) * ln (1 - IZR (Z.of_N x) / IZR (Z.of_N m))))%R.

(** The set bits of bucket [j] of a v2 filter, and the expected number of entries of the whole filter: the sum over its buckets. *)
Definition v2_ones (f : v2) (j : nat) : N := count_below (N.to_nat 32768) (v2_bit f (N.of_nat j)).
Definition sum_R (l : list R) : R := fold_right Rplus 0%R l.
Definition v2_ideal (f : v2) : R :=
  sum_R (map (fun j => ideal_count 32768 (v2_ones f j) (v2_n_hash_buck f)) (seq 0 (length (v2_buckets f)))).
(** The set bits of a v1 filter. *)
Definition v1_ones (f : v1) : N := count_below (N.to_nat (64 * len (v1_bitset f))) (v1_bit f).
