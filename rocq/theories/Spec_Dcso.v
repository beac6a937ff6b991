(** What the DCSO bloom library (Go, github.com/DCSO/bloom) does with a filter and with its file: the other side of the
    cross-compatibility promised by the README (README.md:12, v1.rs:69-73). The library is not part of the repository; this
    is written from its published behaviour, and the file poppy/src/data/test.bloom made by it is the check
    (Prop_Dcso.v, Ex_Conform.v). *)
From Verif Require Import M_Base M_Float Spec_Bits Spec_Hash.
Open Scope N_scope.

(** The fields of a Go filter: desired number of elements, desired probability (bits of the f64), number of hash functions,
    number of bits, number of elements, bit array, attached data. *)
Record dcso := { dc_n : N; dc_p : N; dc_k : N; dc_m : N; dc_N : N; dc_v : list N; dc_data : list byte }.

(** Number of 64-bit integers of the array: uint64(math.Ceil(float64(m) / 64.0)). *)
Definition dcso_words (m : N) : N := f_to_u64 (f_ceil (f_div (f_of_u64 m) (f_of_u64 64))).

(** The file: little-endian 64-bit words. Word 0 holds the flags, whose low byte is the version 1. *)
Definition word (i : nat) (l : list byte) : N := fold_right (fun b acc => b + 256 * acc) 0 (firstn 8 (skipn (8 * i) l)).
Definition dcso_read (l : list byte) : option dcso :=
  if (length l <? 48)%nat || negb (word 0 l mod 256 =? 1) then None
  else let M := N.to_nat (dcso_words (word 4 l)) in
       if (length l <? 48 + 8 * M)%nat then None
       else Some {| dc_n := word 1 l; dc_p := word 2 l; dc_k := word 3 l; dc_m := word 4 l; dc_N := word 5 l;
                    dc_v := map (fun i => word (6 + i) l) (seq 0 M); dc_data := skipn (48 + 8 * M) l |}.
Definition eight (x : N) : list byte := map (fun i => (x / 256 ^ N.of_nat i) mod 256) (seq 0 8).
Definition dcso_write (d : dcso) : list byte :=
  concat (map eight ([1; dc_n d; dc_p d; dc_k d; dc_m d; dc_N d] ++ dc_v d)) ++ dc_data d.

(** The loop of Check; [None] is a Go run-time panic (index out of range, division by zero). *)
Fixpoint dcso_all (v : list N) (l : list N) : option bool :=
  match l with
  | [] => Some true
  | i :: r => match nth_error v (N.to_nat (i / 64)) with
              | None => None
              | Some w => if N.testbit w (i mod 64) then dcso_all v r else Some false
              end
  end.
(** The loop of Add: set each bit, remember whether one of them was unset. *)
Fixpoint dcso_mark (v : list N) (l : list N) (new : bool) : option (list N * bool) :=
  match l with
  | [] => Some (v, new)
  | i :: r => let k := N.to_nat (i / 64) in
              match nth_error v k with
              | None => None
              | Some w => dcso_mark (firstn k v ++ N.setbit w (i mod 64) :: skipn (S k) v) r (new || negb (N.testbit w (i mod 64)))
              end
  end.
Definition dcso_divides (d : dcso) : bool := (dc_k d =? 0) || negb (dc_m d =? 0).
Definition dcso_check (d : dcso) (x : list byte) : option bool :=
  if dcso_divides d then dcso_all (dc_v d) (dcso_positions (dc_k d) (dc_m d) x) else None.
Definition dcso_with (d : dcso) (v : list N) (c : N) : dcso :=
  {| dc_n := dc_n d; dc_p := dc_p d; dc_k := dc_k d; dc_m := dc_m d; dc_N := c; dc_v := v; dc_data := dc_data d |}.
Definition dcso_add (d : dcso) (x : list byte) : option dcso :=
  if dcso_divides d then
    match dcso_mark (dc_v d) (dcso_positions (dc_k d) (dc_m d) x) false with
    | None => None
    | Some (v, new) => Some (dcso_with d v (if new then (dc_N d + 1) mod 2 ^ 64 else dc_N d))
    end
  else None.
Fixpoint dcso_adds (d : dcso) (xs : list (list byte)) : option dcso :=
  match xs with [] => Some d | x :: r => match dcso_add d x with None => None | Some d' => dcso_adds d' r end end.
(** The bit array after Join, for filters with the same parameters. *)
Definition dcso_join_bits (a b : dcso) : list N := map (fun p => N.lor (fst p) (snd p)) (combine (dc_v a) (dc_v b)).
