(** Specification of the hash functions and of the bit positions, independent of the iterators of the model. *)
From Verif Require Import M_Base M_Hash Spec_Bits.
Open Scope N_scope.

(** 64-bit FNV-1: for each byte, multiply by the prime then xor the byte. *)
Definition fnv1 (data : list N) : N :=
  fold_left (fun h b => N.lxor ((h * 1099511628211) mod 2 ^ 64) b) data 14695981039346656037.

(** DCSO: h_0 = FNV-1 mod m, h_(n+1) = (h_n * g mod 2^64) mod m. *)
Fixpoint dcso_h (data : list N) (n : nat) : N :=
  match n with
  | O => fnv1 data mod 18446744073709551557
  | S n' => ((dcso_h data n' * 18446744073709550147) mod 2 ^ 64) mod 18446744073709551557
  end.
(** Positions examined for [data] with [k] hash functions over [m] bits. *)
Definition dcso_positions (k m : N) (data : list N) : list N :=
  map (fun i => dcso_h data (S i) mod m) (seq 0 (N.to_nat k)).

(** Enhanced double hashing: index number [i] for first hash [h1] and second hash [h2] in a bucket of 32768 bits. *)
Definition edh_hash (h1 h2 i : N) : N := (h1 + i * h2 + (i ^ 3 - i) / 6) mod 2 ^ 64.
Definition edh_index (h1 h2 i : N) : N := edh_hash h1 h2 i mod 32768.
Definition edh_positions (k h1 h2 : N) : list N :=
  map (fun i => edh_index h1 h2 (N.of_nat i)) (seq 0 (N.to_nat k)).

(** Keys made of bytes (u8 values); integer keys need no condition, they are reduced to their width. *)
Definition key_ok (k : key) : Prop :=
  match k with KSlice b | KVec b | KStr b | KString b => bytes_ok b | _ => True end.

(** The byte-like key types holding the same bytes. *)
Definition byte_key (b : list N) (k : key) : Prop := k = KSlice b \/ k = KVec b \/ k = KStr b \/ k = KString b.
