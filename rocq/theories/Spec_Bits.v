(** Specification vocabulary: a block of fixed-width words seen as a set of bit positions. *)
From Verif Require Import M_Base.
Open Scope N_scope.

(** Bit number [i] of a list of [w]-bit words, least significant bit of the first word first. *)
Definition bit (w : N) (l : list N) (i : N) : bool :=
  match nth_error l (N.to_nat (i / w)) with Some x => N.testbit x (i mod w) | None => false end.

(** Number of the positions below [n] at which [p] holds. *)
Fixpoint count_below (n : nat) (p : N -> bool) : N :=
  match n with O => 0 | S n' => (if p (N.of_nat n') then 1 else 0) + count_below n' p end.

(** All words fit their width. *)
Definition words_ok (w : N) (l : list N) : Prop := Forall (fun x => x < 2 ^ w) l.

(** Bytes, and a file small enough that its number of bits is a usize (2^61 bytes). *)
Definition bytes_ok (l : list byte) : Prop := Forall (fun b => b < 256) l.
Definition file_size_ok (content : list byte) : Prop := 8 * len content < two64.
