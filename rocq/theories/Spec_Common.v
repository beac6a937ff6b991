(** The common bits of two sets of entries with an ideal hash. *)
From Coq Require Import Reals List Arith Bool.
From Verif Require Import Spec_Rate.
Import ListNotations.

(** The positions below [m] that occur in both lists. *)
Definition common (m : nat) (l l' : list nat) : nat := length (filter (fun i => mem i l && mem i l') (seq 0 m)).
(** Average, over all lists of [k * n] and [k * n'] positions below [m], of a function of the number of common positions. *)
Definition ideal_common (m k n n' : nat) (e : nat -> R) : R :=
  avg_seq m (k * n) [] (fun l => avg_seq m (k * n') [] (fun l' => e (common m l l'))).
