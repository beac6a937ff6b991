(** Real values of doubles, and an accuracy requirement on the C math library. *)
From Coq Require Import Reals.
From Verif Require Import M_Util.
Open Scope R_scope.

(** The real value of a finite double. *)
Definition sf_R (x : spec_float) : R :=
  match x with S754_finite s m e => (if s then - IZR (Zpos m) else IZR (Zpos m)) * powerRZ 2 e | _ => 0 end.
(** [f] is a double, neither an infinity nor NaN. *)
Definition sf_fin (x : spec_float) : Prop :=
  valid_binary 53 1024 x = true /\ match x with S754_zero _ | S754_finite _ _ _ => True | _ => False end.
(** [x] is within 2^-50 of [r], relatively. *)
Definition near (x : spec_float) (r : R) : Prop := sf_fin x /\ Rabs (sf_R x - r) <= powerRZ 2 (-50) * Rabs r.
(** The natural logarithm on the accepted rates, and ln(2.0).powf(2.0), are within 2^-50 of the real values, relatively
    (glibc and musl state errors below 2^-52). *)
Definition libm_accurate (L : libm) : Prop :=
  (forall x, valid_binary 53 1024 x = true -> f_leb (sf_of_bits bits_min_positive) x = true -> f_leb x f_one = true ->
     near (lm_ln L x) (ln (sf_R x))) /\
  near (lm_powf L (lm_ln L f_two) f_two) (ln 2 * ln 2).
(** Bits of an optimal Bloom filter for [n] entries at rate [p]: n ln(1/p) / ln(2)^2. *)
Definition optimal_bits (n : N) (p : R) : R := IZR (Z.of_N n) * ln (/ p) / (ln 2 * ln 2).
