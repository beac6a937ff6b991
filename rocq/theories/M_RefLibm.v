(** A computable instance of the [libm] parameter, used to evaluate the model on concrete filters and to show that
    the hypotheses made about the math library are satisfiable. It models no source file: it stands in for the C
    library behind f64::ln, f64::exp and f64::powf. Values are computed in 192-bit fixed point and rounded once. *)
From Verif Require Export M_Float.
Open Scope Z_scope.

Definition FP : Z := 192.
Definition fx_one : Z := 2 ^ FP.
Definition fx_mul (a b : Z) : Z := Z.shiftr (a * b) FP.

(** sum of t^(2i+1)/(2i+1) for [n] terms from index [i]; [tp] = t^(2i+1). *)
Fixpoint fx_atanh (n : nat) (i tp t2 : Z) : Z :=
  match n with O => 0 | S n' => tp / (2 * i + 1) + fx_atanh n' (i + 1) (fx_mul tp t2) t2 end.
Definition fx_ln2 : Z := Eval vm_compute in
  let t := fx_one / 3 in 2 * fx_atanh 70 0 t (fx_mul t t).
(** ln (m * 2^e). *)
Definition fx_ln (m : positive) (e : Z) : Z :=
  let d := Zpos (digits2_pos m) in
  let x := Z.shiftl (Zpos m) (FP - d + 1) in
  let t := ((x - fx_one) * fx_one) / (x + fx_one) in
  (e + d - 1) * fx_ln2 + 2 * fx_atanh 70 0 t (fx_mul t t).
(** Taylor sum of exp. *)
Fixpoint fx_exp_sum (n : nat) (i term r : Z) : Z :=
  match n with O => 0 | S n' => term + fx_exp_sum n' (i + 1) (fx_mul term r / (i + 1)) r end.
(** exp of a fixed point number, rounded to binary64. *)
Definition fx_exp (z : Z) : spec_float :=
  let k := z / fx_ln2 in
  let r := z mod fx_ln2 in
  if 1100 <? k then S754_infinity false
  else if k <? -1200 then S754_zero false
  else binary_normalize 53 1024 (fx_exp_sum 60 0 fx_one r) (k - FP) false.

Definition ref_ln (x : spec_float) : spec_float :=
  match x with
  | S754_nan => S754_nan
  | S754_zero _ => S754_infinity true
  | S754_infinity s => if s then S754_nan else S754_infinity false
  | S754_finite true _ _ => S754_nan
  | S754_finite false m e => binary_normalize 53 1024 (fx_ln m e) (- FP) false
  end.

Definition fx_of (s : bool) (m : positive) (e : Z) (scale : Z) : Z :=
  let v := Z.shiftl (Zpos m * scale) e in if s then - v else v.

Definition ref_exp (x : spec_float) : spec_float :=
  match x with
  | S754_nan => S754_nan
  | S754_zero _ => f_one
  | S754_infinity s => if s then S754_zero false else S754_infinity false
  | S754_finite s m e =>
    if 12 <? e + Zpos (digits2_pos m) then (if s then S754_zero false else S754_infinity false)
    else fx_exp (fx_of s m e fx_one)
  end.

(** The powers 1 and 2 are done directly: the same results, faster to check. *)
Definition ref_powf (x y : spec_float) : spec_float :=
  if f_eqb y f_one then x else if f_eqb y f_two then f_mul x x else
  match y with
  | S754_zero _ => f_one
  | S754_nan => S754_nan
  | S754_infinity _ => S754_nan
  | S754_finite ys ym ye =>
    match x with
    | S754_nan => S754_nan
    | S754_zero _ => if ys then S754_infinity false else S754_zero false
    | S754_infinity false => if ys then S754_zero false else S754_infinity false
    | S754_infinity true | S754_finite true _ _ => S754_nan
    | S754_finite false m e =>
      let l := fx_ln m e in
      if 70 <? ye + Zpos (digits2_pos ym) then
        (if l =? 0 then f_one else if xorb ys (l <? 0) then S754_zero false else S754_infinity false)
      else fx_exp (fx_of ys ym ye l)
    end
  end.

Definition ref_libm : libm := {| lm_ln := ref_ln; lm_exp := ref_exp; lm_powf := ref_powf |}.
