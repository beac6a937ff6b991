(** The false-positive rate of a v2 filter when the two hashes of every entry are ideal (not, as in Spec_Rate.v, its positions). *)
From Coq Require Import Reals List Arith.
From Verif Require Import Spec_Rate.
Import ListNotations.
Open Scope R_scope.

(** The [k] positions in [m] bits that two hashes with remainders [x] and [y] give (enhanced double hashing). *)
Definition double (m k x y : nat) : list nat := map (fun i => ((x + i * y + (i ^ 3 - i) / 6) mod m)%nat) (seq 0 k).
Definition double_all (m k : nat) (es : list (nat * nat)) : list nat := flat_map (fun e => double m k (fst e) (snd e)) es.
(** Average of [f] over the choices of the two remainders of [n] entries put in front of [es]. *)
Fixpoint avg_pairs (m n : nat) (es : list (nat * nat)) (f : list (nat * nat) -> R) : R :=
  match n with O => f es | S c => avg m (fun x => avg m (fun y => avg_pairs m c ((x, y) :: es) f)) end.
(** [n] entries were inserted in a bucket of [m] bits; probability that the positions of another are all set. *)
Definition double_rate (m k n : nat) : R :=
  avg_pairs m n [] (fun es => avg m (fun x => avg m (fun y => ind (all_mem (double m k x y) (double_all m k es))))).
(** A filter of [b] buckets: entries and query fall in random buckets. *)
Definition double_filter_rate (b m k n : nat) : R := avg_seq b n [] (fun l => avg b (fun q => double_rate m k (count_in q l))).
(** A bucket whose entries, and the query, all have the same first remainder [x]; only the second is random. *)
Definition same_first_rate (m k x n : nat) : R :=
  avg_seq m n [] (fun ys => avg m (fun y => ind (all_mem (double m k x y) (flat_map (double m k x) ys)))).
(** Sum of the common divisors with [m] of the differences of the numbers below [k]. *)
Definition gcd_sum (m k : nat) : R := sum_below k (fun j => sum_below j (fun i => INR (Nat.gcd (j - i) m))).
