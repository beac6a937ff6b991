(** poppy/src/hash.rs, poppy/src/hash/fnv.rs, poppy/src/hash/wyhash.rs and the index iterators of
    poppy/src/bloom/v1.rs and v2.rs. *)
From Verif Require Export M_BitSet.
Open Scope N_scope.

(** ** FNV-1: poppy/src/hash/fnv.rs *)

(** fnv.rs:5-6. *)
Definition FNV_OFFSET : u64 := 14695981039346656037.
Definition FNV_PRIME : u64 := 1099511628211.

(** fnv.rs:42-43 (and 50-51): one byte. *)
Definition fnv_byte (sum : u64) (b : byte) : u64 := N.lxor (w64 (sum * FNV_PRIME)) b.

(** slice::chunks_exact(8) and its remainder (fnv.rs:32-34). *)
Fixpoint chunks8 (l : list byte) : list (list byte) * list byte :=
  match l with
  | a :: b :: c :: d :: e :: f :: g :: h :: r =>
    let '(cs, rem) := chunks8 r in ([a; b; c; d; e; f; g; h] :: cs, rem)
  | _ => ([], l)
  end.

(** fnv.rs:29-54 [Fnv1Hasher::write]: full chunks first, then the remainder copied to [rem]. *)
Definition fnv_write (sum : u64) (bytes : list byte) : u64 :=
  let '(cs, r) := chunks8 bytes in
  let sum := fold_left (fun s c => fold_left fnv_byte c s) cs sum in
  match r with [] => sum | _ => fold_left fnv_byte r sum end.

(** fnv.rs:13-23 default/finish, and hash.rs:9-13 [hash_one]. *)
Definition fnv_hash_one (bytes : list byte) : u64 := fnv_write FNV_OFFSET bytes.

(** ** WyHash: poppy/src/hash/wyhash.rs
    The wyhash crate (seeded with SEED, wyhash.rs:8) is an oracle mapping the sequence of [write] calls made on
    a fresh hasher to [finish()]; the model reduces its result mod 2^64 so any function is admissible. *)
Definition hasher := list (list byte) -> N.
Definition wy_finish (wy : hasher) (writes : list (list byte)) : u64 := w64 (wy writes).

(** hash.rs:83-87 [digest] and hash.rs:9-13 [hash_one] with H = WyHasher: a single write. *)
Definition wy_hash_one (wy : hasher) (s : list byte) : u64 := wy_finish wy [s].

(** ** Keys: types implementing PoppyHash (hash.rs:34-81).
    [KInt w v]: an integer of [w] bytes holding the two's complement pattern [v] (hash.rs:50).
    [KSlice]/[KVec]: &[u8] / Vec<u8>; [KStr]/[KString]: &str / String, given by their UTF-8 bytes.
    [KOpt]: Option<T> where T is any of these (hash.rs:42).
    [KCustom ws]: a user type with the default hash_pop, described by the [write] calls its Hash impl makes. *)
Inductive key :=
| KInt (w : nat) (v : N)
| KSlice (b : list byte)
| KVec (b : list byte)
| KStr (b : list byte)
| KString (b : list byte)
| KOpt (k : option key)
| KCustom (writes : list (list byte)).

(** std's [Hash::hash] as the sequence of [Hasher::write] calls, WyHasher only overriding [write]
    (wyhash.rs:23-33), little-endian target: integers write their bytes; slices write the length (usize) then
    the bytes; str writes its bytes then 0xff; Option writes its discriminant (isize) then the payload. *)
Fixpoint std_hash (k : key) : list (list byte) :=
  match k with
  | KInt w v => [le_bytes w v]
  | KSlice b | KVec b => [le_bytes 8 (len b); b]
  | KStr b | KString b => [b; [255]]
  | KOpt None => [le_bytes 8 0]
  | KOpt (Some k') => le_bytes 8 1 :: std_hash k'
  | KCustom ws => ws
  end.

(** [tmp[i] = b] for each byte of data, tmp = [0; 8] (hash.rs:58-60, v2.rs:64-69); data has at most 8 bytes. *)
Definition pad8 (b : list byte) : list byte := b ++ repeat 0 (8 - length b).

(** hash.rs:52-63: PoppyHash for &[u8]. *)
Definition hash_slice (wy : hasher) (b : list byte) : u64 :=
  if 8 <? len b then wy_hash_one wy b else of_le (pad8 b).

(** hash.rs:34-81: hash_pop of every key type; the default method is hash.rs:35-39. *)
Definition hash_pop (wy : hasher) (k : key) : u64 :=
  match k with
  | KSlice b | KVec b | KStr b | KString b => hash_slice wy b
  | KInt _ _ | KOpt _ | KCustom _ => wy_finish wy (std_hash k)
  end.

(** ** v2 index iterator: poppy/src/bloom/v2.rs:18-121 *)

(** v2.rs:30-36 [xorshift_star]; wrapping_shl drops the high bits. *)
Definition xorshift_star (seed : u64) : u64 :=
  let s1 := N.lxor seed (w64 (N.shiftl seed 12)) in
  let s2 := N.lxor s1 (N.shiftr s1 25) in
  let s3 := N.lxor s2 (w64 (N.shiftl s2 27)) in
  w64 (s3 * 2685821657736338717).

(** v2.rs:18-26. *)
Record index_iter := { it_init : bool; it_h1 : u64; it_h2 : u64; it_i : u64; it_count : u64 }.

(** v2.rs:39-43 [new] (derived Default). *)
Definition it_new : index_iter := {| it_init := false; it_h1 := 0; it_h2 := 0; it_i := 0; it_count := 0 |}.
(** v2.rs:45-47 [set_count]. *)
Definition it_set_count (it : index_iter) (c : u64) : index_iter :=
  {| it_init := it_init it; it_h1 := it_h1 it; it_h2 := it_h2 it; it_i := it_i it; it_count := c |}.
(** v2.rs:49-54 [bucket_hash]. *)
Definition it_bucket_hash (it : index_iter) : u64 := xorshift_star (it_h1 it).
(** v2.rs:56-74 [init_with_slice] (former API). *)
Definition it_init_with_slice (wy : hasher) (it : index_iter) (data : list byte) : index_iter :=
  {| it_init := true;
     it_h1 := if 8 <? len data then wy_hash_one wy data else of_le (pad8 data);
     it_h2 := 0; it_i := 0; it_count := it_count it |}.
(** v2.rs:76-83 [init_with_hashable]. *)
Definition it_init_with_hashable (wy : hasher) (it : index_iter) (k : key) : index_iter :=
  {| it_init := true; it_h1 := hash_pop wy k; it_h2 := 0; it_i := 0; it_count := it_count it |}.
(** v2.rs:85-88 [is_init]. *)
Definition it_is_init (it : index_iter) : bool := it_init it && (it_i it =? 0).

(** v2.rs:91-121 [Iterator::next] with const parameter [M]. *)
Definition it_next (wy : hasher) (M : u64) (it : index_iter) : option u64 * index_iter :=
  if it_i it <? it_count it then
    let '(h1, h2) :=
      if 0 <? it_i it then
        let h2 := if it_i it =? 1 then wy_hash_one wy (be_bytes 8 (it_h1 it)) else it_h2 it in
        (w64 (it_h1 it + h2), w64 (h2 + it_i it))
      else (it_h1 it, it_h2 it) in
    let it' := {| it_init := it_init it; it_h1 := h1; it_h2 := h2;
                  it_i := w64 (it_i it + 1); it_count := it_count it |} in
    (Some (if is_power_of_two M then N.land h1 (M - 1) else h1 mod M), it')
  else (None, it).

(** The values a [for] loop over the iterator sees (next is pure, so they can be listed up front). At most
    count - i steps are needed: i grows by one per step and stops at count. *)
Fixpoint it_collect (wy : hasher) (M : u64) (fuel : nat) (it : index_iter) : list u64 :=
  match fuel with
  | O => []
  | S n => match it_next wy M it with
           | (Some x, it') => x :: it_collect wy M n it'
           | (None, _) => []
           end
  end.
Definition it_list (wy : hasher) (M : u64) (it : index_iter) : list u64 :=
  it_collect wy M (N.to_nat (it_count it - it_i it)) it.

(** ** v1 fingerprint: poppy/src/bloom/v1.rs:15-66 *)
Definition V1_M : u64 := 18446744073709551557.
Definition V1_G : u64 := 18446744073709550147.

(** v1.rs:28-34. *)
Record fingerprint := { fp_h : u64; fp_m : u64; fp_i : u64; fp_count : u64 }.
(** v1.rs:37-43. *)
Definition fp_new (count modulo : u64) : fingerprint :=
  {| fp_h := 0; fp_m := modulo; fp_i := 0; fp_count := count |}.
(** v1.rs:45-52. *)
Definition fp_fingerprint (f : fingerprint) (data : list byte) : fingerprint :=
  {| fp_h := fnv_hash_one data mod V1_M; fp_m := fp_m f; fp_i := 0; fp_count := fp_count f |}.
(** v1.rs:55-66 [next]: [self.h % self.m] panics when m = 0. *)
Definition fp_next (f : fingerprint) : outcome (option u64) * fingerprint :=
  if fp_i f <? fp_count f then
    let h := w64 (fp_h f * V1_G) mod V1_M in
    let f' := {| fp_h := h; fp_m := fp_m f; fp_i := w64 (fp_i f + 1); fp_count := fp_count f |} in
    (if fp_m f =? 0 then Panic else Ok (Some (h mod fp_m f)), f')
  else (Ok None, f).

(** The items a [for] loop sees, the first panic included ([Panic] ends the list). *)
Fixpoint fp_collect (fuel : nat) (f : fingerprint) : list (outcome u64) :=
  match fuel with
  | O => []
  | S n => match fp_next f with
           | (Ok (Some x), f') => Ok x :: fp_collect n f'
           | (Ok None, _) => []
           | (Err e, _) => [Err e]
           | (Panic, _) => [Panic]
           end
  end.
Definition fp_list (f : fingerprint) : list (outcome u64) :=
  fp_collect (N.to_nat (fp_count f - fp_i f)) f.
