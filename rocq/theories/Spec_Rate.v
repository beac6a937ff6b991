(** The false-positive rate of a Bloom filter with an ideal hash: every sequence of positions is equally likely. *)
From Coq Require Import Reals List Arith.
Import ListNotations.
Open Scope R_scope.

Fixpoint sum_below (m : nat) (f : nat -> R) : R := match m with O => 0 | S k => sum_below k f + f k end.
(** Average over the positions below [m]. *)
Definition avg (m : nat) (f : nat -> R) : R := sum_below m f / INR m.
(** Average of [f] over the [m^t] lists that put [t] positions in front of [l]. *)
Fixpoint avg_seq (m t : nat) (l : list nat) (f : list nat -> R) : R :=
  match t with O => f l | S k => avg m (fun i => avg_seq m k (i :: l) f) end.
Definition mem (i : nat) (l : list nat) : bool := existsb (Nat.eqb i) l.
(** The query positions [q] are all among the positions [l] set so far. *)
Definition all_mem (q l : list nat) : bool := forallb (fun i => mem i l) q.
Definition ind (b : bool) : R := if b then 1 else 0.

(** [n] entries with [k] positions each were inserted in [m] bits; probability that [k] new positions are all set. *)
Definition ideal_rate (m k n : nat) : R :=
  avg_seq m (k * n) [] (fun l => avg_seq m k [] (fun q => ind (all_mem q l))).
(** The same when moreover the single position of the query in a second set of [c] bits must be one of the [n] positions the
    entries have there (the index cache of a v2 filter). *)
Definition ideal_cached_rate (c m k n : nat) : R :=
  avg_seq c n [] (fun lc => avg_seq m (k * n) [] (fun l => avg_seq c 1 [] (fun qc => avg_seq m k [] (fun q => ind (all_mem qc lc && all_mem q l))))).
(** The usual approximation, also used by poppy/src/bloom/utils.rs:16. *)
Definition formula_rate (m : R) (k : nat) (n : R) : R := (1 - exp (- (INR k * n / m))) ^ k.

(** A filter of [b] buckets of [m] bits: the [n] entries and the query each fall in a random bucket, and only the entries of the
    query's bucket matter. *)
Definition count_in (q : nat) (l : list nat) : nat := length (filter (Nat.eqb q) l).
Definition ideal_filter_rate (b m k n : nat) : R := avg_seq b n [] (fun l => avg b (fun q => ideal_rate m k (count_in q l))).
