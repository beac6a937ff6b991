(** Machine integers, outcomes and lists shared by the whole model.
    No proofs in M_*.v files. *)
From Coq Require Export NArith ZArith List Bool.
Export ListNotations.
Open Scope N_scope.

(** u8, u64 and usize values are [N]; the target is 64-bit (usize = u64), as in
    poppy/src/bin/poppy.rs:23 (target_pointer_width = "64") and every published wheel. *)
Notation byte := N (only parsing).
Notation u64 := N (only parsing).
Notation usize := N (only parsing).

Definition two64 : N := 18446744073709551616.
Definition u64_max : N := 18446744073709551615.
Definition isize_max : N := 9223372036854775807.

(** Wrap-around at 64 bits (the wrapping_ family of u64). *)
Definition w64 (x : N) : u64 := x mod two64.

(** Build profile: in [Debug] arithmetic overflow panics and debug_assert! is active,
    in [Release] arithmetic wraps and debug_assert! is compiled out. *)
Inductive profile := Debug | Release.

(** poppy/src/bloom.rs:98-114 [enum Error]. Payload strings of Merge and io::Error details are dropped.
    [NotPoppy] is the anyhow! message of bin/poppy.rs:294 (no other part of the model returns it). *)
Inductive error :=
| WrongFpp (fpp_bits : N)
| IoError
| InvalidVersion (v : byte)
| Merge
| OptLevelError (v : byte)
| TooManyEntries
| UninitIter
| NotPoppy.

(** Result<A, Error> plus the panic outcome. *)
Inductive outcome (A : Type) :=
| Ok (a : A)
| Err (e : error)
| Panic.
Arguments Ok {A} a.
Arguments Err {A} e.
Arguments Panic {A}.

Definition obind {A B} (x : outcome A) (k : A -> outcome B) : outcome B :=
  match x with Ok a => k a | Err e => Err e | Panic => Panic end.
Notation "'let?' x := e 'in' k" := (obind e (fun x => k))
  (at level 200, x pattern, e at level 100, k at level 200, right associativity).

(** [a + b] and [a * b] on u64/usize with the profile's overflow behaviour. *)
Definition checked_add (pr : profile) (a b : N) : outcome N :=
  if a + b <? two64 then Ok (a + b)
  else match pr with Debug => Panic | Release => Ok (w64 (a + b)) end.
Definition checked_mul (pr : profile) (a b : N) : outcome N :=
  if a * b <? two64 then Ok (a * b)
  else match pr with Debug => Panic | Release => Ok (w64 (a * b)) end.

(** [iter.sum()] on u64/usize: left fold of the checked addition from 0. *)
Fixpoint checked_sum_from (pr : profile) (acc : N) (l : list N) : outcome N :=
  match l with
  | [] => Ok acc
  | x :: r => let? a := checked_add pr acc x in checked_sum_from pr a r
  end.
Definition checked_sum (pr : profile) (l : list N) : outcome N := checked_sum_from pr 0 l.

(** Length as usize. *)
Definition len {A} (l : list A) : usize := N.of_nat (length l).

(** Slice element access [l[i]] / [l.get(i)] and element update [l[i] = x] (no effect out of range). *)
Definition getN {A} (l : list A) (i : usize) : option A := nth_error l (N.to_nat i).
Fixpoint upd {A} (l : list A) (n : nat) (x : A) : list A :=
  match l, n with
  | [], _ => []
  | _ :: r, O => x :: r
  | y :: r, S n' => y :: upd r n' x
  end.
Definition setN {A} (l : list A) (i : usize) (x : A) : list A := upd l (N.to_nat i) x.

(** [vec![x; n]] for elements of [size] bytes: std panics with "capacity overflow" when the
    allocation exceeds isize::MAX bytes. Below that, memory is assumed to be available. *)
Definition vec_of {A} (size : N) (x : A) (n : usize) : outcome (list A) :=
  if n * size <=? isize_max then Ok (repeat x (N.to_nat n)) else Panic.

(** [(0..a.len()).for_each(|i| a[i] = f(a[i], b[i]))]: panics when [b] is shorter. *)
Fixpoint zip_with {A B C} (f : A -> B -> C) (a : list A) (b : list B) : outcome (list C) :=
  match a, b with
  | [], _ => Ok []
  | x :: a', y :: b' => let? r := zip_with f a' b' in Ok (f x y :: r)
  | _ :: _, [] => Panic
  end.

(** count_ones of the unsigned integers. *)
Fixpoint pop_pos (p : positive) : N :=
  match p with xH => 1 | xO p => pop_pos p | xI p => N.succ (pop_pos p) end.
Definition count_ones (x : N) : N := match x with 0 => 0 | Npos p => pop_pos p end.

(** u64::is_power_of_two: count_ones() == 1. *)
Definition is_power_of_two (x : N) : bool := count_ones x =? 1.

(** u64::next_power_of_two: smallest power of two >= x; overflow panics in debug, gives 0 in release. *)
Definition next_power_of_two (pr : profile) (x : u64) : outcome u64 :=
  let r := if x <=? 1 then 1 else 2 ^ (N.log2 (x - 1) + 1) in
  if r <? two64 then Ok r else match pr with Debug => Panic | Release => Ok 0 end.

(** u64::to_le_bytes / to_be_bytes / from_le_bytes, for any width in bytes. *)
Fixpoint le_bytes (n : nat) (x : N) : list byte :=
  match n with O => [] | S n' => x mod 256 :: le_bytes n' (x / 256) end.
Definition be_bytes (n : nat) (x : N) : list byte := rev (le_bytes n x).
Fixpoint of_le (l : list byte) : N :=
  match l with [] => 0 | b :: r => b + 256 * of_le r end.

(** [x as i64] of a u64/usize. *)
Definition as_i64 (x : u64) : Z :=
  if x <? 9223372036854775808 then Z.of_N x else (Z.of_N x - 18446744073709551616)%Z.
