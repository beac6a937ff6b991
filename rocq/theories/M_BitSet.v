(** poppy/src/bitset/array.rs [BitSet<N>] and poppy/src/bitset/vec.rs [VecBitSet].
    Both wrap a block of bytes with identical method bodies; a bit set is its byte list. The fixed length of
    [BitSet<N>] is the invariant "length = N". *)
From Verif Require Export M_Float.
Open Scope N_scope.

Notation bitset := (list N) (only parsing).

(** array.rs:8-10 [BitSet::new]. *)
Definition bs_new (n : usize) : bitset := repeat 0 (N.to_nat n).

(** vec.rs:4-7 [byte_cap_from_bit_cap]: ((bit_cap as f64) / 8.0).ceil() as usize. *)
Definition byte_cap_from_bit_cap (bit_cap : usize) : usize :=
  f_to_u64 (f_ceil (f_div (f_of_u64 bit_cap) (f_of_u64 8))).

(** vec.rs:10-14 [VecBitSet::with_bit_capacity]. *)
Definition bs_with_bit_capacity (cap : usize) : outcome bitset := vec_of 1 0 (byte_cap_from_bit_cap cap).

(** vec.rs:16-20 [is_empty]. *)
Definition bs_is_empty (b : bitset) : bool := match b with [] => true | _ => false end.

(** array.rs:12-20 and vec.rs:52-60 [set_value_nth_bit]. [(value as u8) << (index & 7)] cannot overflow u8:
    the shift is below 8 and only 0 or 1 is shifted. Out of range index: slice index panic. *)
Definition bs_set_value (b : bitset) (index : usize) (value : bool) : bitset * outcome bool :=
  let iblock := index / 8 in
  let mask := N.shiftl (if value then 1 else 0) (N.land index 7) in
  match getN b iblock with
  | None => (b, Panic)
  | Some x => let old := N.land x mask =? mask in (setN b iblock (N.lor x mask), Ok old)
  end.

(** array.rs:22-30, vec.rs:32-40 [set_nth_bit]; array.rs:32-40, vec.rs:42-50 [unset_nth_bit]. *)
Definition bs_set (b : bitset) (index : usize) : bitset * outcome bool := bs_set_value b index true.
Definition bs_unset (b : bitset) (index : usize) : bitset * outcome bool := bs_set_value b index false.

(** array.rs:42-53, vec.rs:62-73 [get_nth_bit]. *)
Definition bs_get (b : bitset) (index : usize) : outcome bool :=
  let iblock := index / 8 in
  let mask := N.shiftl 1 (N.land index 7) in
  match getN b iblock with
  | None => Panic
  | Some x => Ok (N.land x mask =? mask)
  end.

(** array.rs:65-69, vec.rs:75-79 [clear]. *)
Definition bs_clear (b : bitset) : bitset := map (fun _ => 0) b.

(** array.rs:71-81 and 122-132, vec.rs:81-91 [bit_len]/[byte_len]/[byte_size]/[bit_size].
    [len * 8] does not wrap: a byte vector is shorter than 2^60 on every 64-bit target. *)
Definition bs_byte_len (b : bitset) : usize := len b.
Definition bs_bit_len (b : bitset) : usize := len b * 8.

(** [iter().map(..).sum()] of per-byte counts; the sum is at most 8 * length and does not overflow. *)
Definition sumN (l : list N) : N := fold_right N.add 0 l.

(** array.rs:83-87, vec.rs:140-144 [count_ones]; array.rs:116-120, vec.rs:146-150 [count_zeros]
    (u8::count_zeros is 8 - count_ones). *)
Definition bs_count_ones (b : bitset) : usize := sumN (map count_ones b).
Definition bs_count_zeros (b : bitset) : usize := sumN (map (fun x => 8 - count_ones x) b).

(** array.rs:89-99 [BitSet::union]/[intersection]: arrays of equal type-level length. *)
Definition arr_union (a b : bitset) : outcome bitset := zip_with N.lor a b.
Definition arr_inter (a b : bitset) : outcome bitset := zip_with N.land a b.

(** vec.rs:93-121 [VecBitSet::union]/[intersection]: assert_eq! on the lengths first. *)
Definition vec_union (a b : bitset) : outcome bitset :=
  if len a =? len b then zip_with N.lor a b else Panic.
Definition vec_inter (a b : bitset) : outcome bitset :=
  if len a =? len b then zip_with N.land a b else Panic.

(** array.rs:101-114 [count_ones_in_common] (loop until i == len). *)
Definition arr_common (a b : bitset) : outcome usize :=
  let? l := zip_with (fun x y => count_ones (N.land x y)) a b in Ok (sumN l).
(** vec.rs:123-138 [count_ones_in_common]. *)
Definition vec_common (a b : bitset) : outcome usize :=
  if len a =? len b then arr_common a b else Panic.
