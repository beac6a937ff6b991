(** IEEE binary64 as used by the code: values are 64-bit patterns; arithmetic is the standard library's
    executable specification SpecFloat at precision 53 and emax 1024 (round to nearest even). *)
From Coq Require Export SpecFloat.
From Verif Require Export M_Base.
Open Scope N_scope.

(** An f64 held in a struct or a file: its bit pattern (f64::to_le_bytes/from_le_bytes are then exact,
    poppy/src/utils.rs:15-19). *)
Notation f64_bits := N (only parsing).

(** f64::from_bits; NaN payloads are irrelevant to arithmetic. *)
Definition sf_of_bits (b : f64_bits) : spec_float :=
  let s := N.testbit b 63 in
  let e := (b / 4503599627370496) mod 2048 in
  let m := b mod 4503599627370496 in
  if e =? 0 then match m with 0 => S754_zero s | Npos p => S754_finite s p (-1074) end
  else if e =? 2047 then (if m =? 0 then S754_infinity s else S754_nan)
  else match m + 4503599627370496 with
       | 0 => S754_nan
       | Npos p => S754_finite s p (Z.of_N e - 1075)
       end.

Definition f_add := SFadd 53 1024.
Definition f_sub := SFsub 53 1024.
Definition f_mul := SFmul 53 1024.
Definition f_div := SFdiv 53 1024.
Definition f_opp := SFopp.
Definition f_abs := SFabs.

(** [x as f64] for a u64/usize. *)
Definition f_of_u64 (x : u64) : spec_float := binary_normalize 53 1024 (Z.of_N x) 0 false.

(** [x as u64] / [x as usize]: truncation, saturating, NaN to 0. *)
Definition f_to_u64 (x : spec_float) : u64 :=
  match x with
  | S754_nan | S754_zero _ => 0
  | S754_infinity s => if s then 0 else u64_max
  | S754_finite true _ _ => 0
  | S754_finite false m e =>
    match e with
    | Z0 => N.min u64_max (Npos m)
    | Zpos p => if Z.leb 64 e then u64_max else N.min u64_max (N.shiftl (Npos m) (Npos p))
    | Zneg p => N.min u64_max (N.shiftr (Npos m) (Npos p))
    end
  end.

(** f64::ceil. A result of zero keeps the sign of the argument. *)
Definition f_ceil (x : spec_float) : spec_float :=
  match x with
  | S754_finite s m (Zneg p) =>
    let z := if s then (- (Zpos m / 2 ^ Zpos p))%Z else (- (Zneg m / 2 ^ Zpos p))%Z in
    binary_normalize 53 1024 z 0 s
  | _ => x
  end.

(** f64::round: nearest integer, ties away from zero. *)
Definition f_round (x : spec_float) : spec_float :=
  match x with
  | S754_finite s m (Zneg p) =>
    let a := ((2 * Zpos m + 2 ^ Zpos p) / 2 ^ (Zpos p + 1))%Z in
    binary_normalize 53 1024 (if s then (- a)%Z else a) 0 s
  | _ => x
  end.

Definition f_leb := SFleb.
Definition f_eqb := SFeqb.

(** Constants: 0.0-free list of the literals the code uses. *)
Definition bits_one : f64_bits := 4607182418800017408.           (* 1.0  = 0x3FF0000000000000 *)
Definition bits_min_positive : f64_bits := 4503599627370496.     (* f64::MIN_POSITIVE = 0x0010000000000000 *)
Definition f_one : spec_float := f_of_u64 1.
Definition f_two : spec_float := f_of_u64 2.

(** The C math library behind f64::ln, f64::exp and f64::powf. Rust leaves their precision unspecified,
    so they are parameters of the model. *)
Record libm := {
  lm_ln : spec_float -> spec_float;
  lm_exp : spec_float -> spec_float;
  lm_powf : spec_float -> spec_float -> spec_float
}.

(** [(f64::MIN_POSITIVE..=1.0).contains(&fpp)]:
    poppy/src/bloom/v2.rs:197 and 282, poppy/src/bloom/v1.rs:105. *)
Definition fpp_in_range (fpp : f64_bits) : bool :=
  f_leb (sf_of_bits bits_min_positive) (sf_of_bits fpp) && f_leb (sf_of_bits fpp) (sf_of_bits bits_one).

(** [self.fpp == other.fpp] on f64: poppy/src/bloom/v2.rs:602, poppy/src/bloom/v1.rs:376. *)
Definition fpp_eqb (a b : f64_bits) : bool := f_eqb (sf_of_bits a) (sf_of_bits b).
