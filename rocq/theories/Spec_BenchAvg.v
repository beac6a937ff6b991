(** The draws of a bench condition, all equally likely: for every line a number in 0..=100 and a byte per byte of the line. *)
From Coq Require Import Reals.
From Verif Require Import M_Bench Spec_Bits Spec_Cli Spec_Bench Spec_Rate.
Open Scope N_scope.

(** The draws given by a list with one number and one list of bytes per line. *)
Definition drawn (ds : list (nat * list nat)) : draws :=
  {| dr_roll := fun _ i => N.of_nat (fst (nth (N.to_nat i) ds (0%nat, [])));
     dr_key := fun _ i j => N.of_nat (nth (N.to_nat j) (snd (nth (N.to_nat i) ds (0%nat, []))) 0%nat) |}.
(** Average over all draws for the lines [test]. *)
Fixpoint avg_draws (test : list (list byte)) (f : list (nat * list nat) -> R) : R :=
  match test with
  | [] => f []
  | e :: r => avg 101 (fun x => avg_seq 256 (length e) [] (fun k => avg_draws r (fun ds => f ((x, k) :: ds))))
  end.
(** The share of the byte strings of length [n] that the filter reports. *)
Definition reported (wy : hasher) (b : bloom) (n : nat) : R := avg_seq 256 n [] (fun s => ind (contained wy b (map N.of_nat s))).
(** The share of queried values not mutated, and what bin/poppy.rs:535-538 prints for it, in percent. *)
Definition kept_share (d : draws) (test : list (list byte)) (c : N) : R := (1 - INR (N.to_nat (n_mutated d test c)) / INR (length test))%R.
Definition printed_percent (c : N) : N := 100 - 10 * (c + 1).
