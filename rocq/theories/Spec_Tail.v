(** How often an ideal hash gives a filter with a bad false-positive rate, or a bad count. *)
From Coq Require Import Reals List Arith.
From Verif Require Import Spec_Rate Spec_CountAvg.
Import ListNotations.
Open Scope R_scope.

(** 1 when [x] is above [r]. *)
Definition above (r x : R) : R := if Rlt_dec r x then 1 else 0.
(** [n] entries with [k] positions each were inserted in [m] bits. The fraction of all choices of these positions after which
    the filter wrongly reports more than a fraction [r] of all queries. *)
Definition bad_rate_fraction (m k n : nat) (r : R) : R :=
  avg_seq m (k * n) [] (fun l => above r (avg_seq m k [] (fun q => ind (all_mem q l)))).
(** The fraction of all choices after which the estimate [e] made from the number of set bits is further than [d] from [n]. *)
Definition bad_count_fraction (m k n : nat) (e : nat -> R) (d : R) : R :=
  avg_seq m (k * n) [] (fun l => above d (Rabs (e (ones m l) - INR n))).

(** A filter of [b] buckets of [m] bits. An entry is its bucket and its [k] positions there; average of [f] over the choices of
    [n] entries put in front of [es]. *)
Fixpoint avg_entries (b m k n : nat) (es : list (nat * list nat)) (f : list (nat * list nat) -> R) : R :=
  match n with O => f es | S c => avg b (fun j => avg_seq m k [] (fun q => avg_entries b m k c ((j, q) :: es) f)) end.
Definition bucket_positions (j : nat) (es : list (nat * list nat)) : list nat := flat_map snd (filter (fun e => Nat.eqb j (fst e)) es).
(** The fraction of all queries wrongly reported by the filter that holds [es]. *)
Definition filter_rate (b m k : nat) (es : list (nat * list nat)) : R :=
  avg b (fun j => avg_seq m k [] (fun q => ind (all_mem q (bucket_positions j es)))).
(** The fraction of all choices of [n] entries after which that is more than [r]. *)
Definition bad_filter_fraction (b m k n : nat) (r : R) : R := avg_entries b m k n [] (fun es => above r (filter_rate b m k es)).
