(** Accuracy requirement on exp and powf of the C math library. *)
From Coq Require Import Reals.
From Verif Require Import M_Util Spec_Real.
Open Scope R_scope.

(** exp on [-2, 0], and powf of a number in [1/4, 1] with exponent 1.0 or 2.0, are within 2^-50 of the real values, relatively. *)
Definition libm_exp_accurate (L : libm) : Prop :=
  (forall x, sf_fin x -> - 2 <= sf_R x <= 0 -> near (lm_exp L x) (exp (sf_R x))) /\
  (forall x k, sf_fin x -> / 4 <= sf_R x <= 1 -> k = 1%N \/ k = 2%N -> near (lm_powf L x (f_of_u64 k)) (sf_R x ^ N.to_nat k)).
