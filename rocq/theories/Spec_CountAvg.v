(** The average of an estimate made from the number of set bits, for an ideal hash. *)
From Coq Require Import Reals List Arith.
From Verif Require Import Spec_Rate.
Import ListNotations.

(** Bits of [m] set by the positions of [l]. *)
Definition ones (m : nat) (l : list nat) : nat := length (filter (fun i => mem i l) (seq 0 m)).
(** [n] entries with [k] positions each were inserted in [m] bits; average of [e] of the number of bits set. *)
Definition ideal_estimate (m k n : nat) (e : nat -> R) : R := avg_seq m (k * n) [] (fun l => e (ones m l)).
(** A filter of [b] buckets of [m] bits: every entry falls in a random bucket, and the estimates of the buckets are added. *)
Definition ideal_filter_estimate (b m k n : nat) (e : nat -> R) : R :=
  avg_seq b n [] (fun l => sum_below b (fun j => ideal_estimate m k (count_in j l) e)).
