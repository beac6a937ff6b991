(** What the theorems about sizes ask of the C math library. Each theorem names the facts it uses. *)
From Verif Require Import M_Util.
Open Scope N_scope.

(** ln(2.0) is the double nearest to ln 2, 0x3FE62E42FEFA39EF. *)
Definition libm_ln2 (L : libm) : Prop := lm_ln L f_two = S754_finite false 6243314768165359 (-53).
(** ln(2.0).powf(2.0) is 0x3FDEBFBDFF82C58E. *)
Definition libm_ln2_sq (L : libm) : Prop :=
  libm_ln2 L /\ lm_powf L (lm_ln L f_two) f_two = S754_finite false 8655072057804174 (-54).
(** ln(1.0) is +0.0. *)
Definition libm_ln1 (L : libm) : Prop := lm_ln L f_one = S754_zero false.
(** ln of a double between f64::MIN_POSITIVE and 1.0 is a double that is 0.0 or lies between -800.0 and -2^-60 (the
    exact values are 0 and between -708.4 and -2^-53). *)
Definition libm_ln_range (L : libm) : Prop := forall x, valid_binary 53 1024 x = true ->
  f_leb (sf_of_bits bits_min_positive) x = true -> f_leb x f_one = true ->
  let y := lm_ln L x in
  y = S754_zero false \/ y = S754_zero true \/
  valid_binary 53 1024 y = true /\ f_leb (f_opp (f_of_u64 800)) y = true /\
  f_leb y (S754_finite true 4503599627370496 (-112)) = true.
