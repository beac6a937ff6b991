(** Measured times: poppy/src/utils.rs:131-162. *)
From Verif Require Export M_Bench M_Text.
Open Scope N_scope.

(** A std Duration is its number of nanoseconds, below 2^64 seconds. *)
Definition NANOS : N := 1000000000.
(** std: [as_secs_f64], (secs as f64) + (nanos as f64) / 1e9. *)
Definition as_secs_f64 (d : N) : spec_float := f_add (f_of_u64 (d / NANOS)) (f_div (f_of_u64 (d mod NANOS)) (f_of_u64 NANOS)).
(** std: [from_secs_f64], to the nearest nanosecond, ties to even (since Rust 1.63; the crate asks for 1.74); panics on a
    negative number, on NaN and from 2^64 seconds on. *)
Definition from_secs_f64 (x : spec_float) : outcome N :=
  match x with
  | S754_zero _ => Ok 0
  | S754_finite false m e => let d := half_even (NANOS * Npos m) e in if d <? two64 * NANOS then Ok d else Panic
  | _ => Panic
  end.

(** statrs 0.16 [Statistics::variance]: one pass over the running sum; NaN for fewer than two values. *)
Fixpoint var_from (i sum var : spec_float) (l : list spec_float) : spec_float * spec_float :=
  match l with
  | [] => (i, var)
  | x :: r =>
    let i := f_add i f_one in
    let sum := f_add sum x in
    let diff := f_sub (f_mul i x) sum in
    var_from i sum (f_add var (f_div (f_mul diff diff) (f_mul i (f_sub i f_one)))) r
  end.
Definition stat_variance (l : list spec_float) : spec_float :=
  match l with
  | [] => S754_nan
  | x :: r => let '(i, v) := var_from f_one x (S754_zero false) r in
              if SFltb f_one i then f_div v (f_sub i f_one) else S754_nan
  end.
Definition f_sqrt := SFsqrt 53 1024.
Definition stat_std_dev (l : list spec_float) : spec_float := f_sqrt (stat_variance l).

(** utils.rs:132-158 [benchmark]: [times] are the durations measured for each run of the closure. *)
Definition f_three : spec_float := f_of_u64 3.
Definition bench_keep (mean threshold x : spec_float) : bool := f_leb (f_abs (f_sub x mean)) threshold.
Definition bench_time (times : list N) : outcome N :=
  let ts := map as_secs_f64 times in
  match times with
  | [t] => from_secs_f64 (as_secs_f64 t)
  | _ => let mean := stat_mean ts in
         let threshold := f_mul f_three (stat_std_dev ts) in
         from_secs_f64 (stat_mean (filter (bench_keep mean threshold) ts))
  end.
(** utils.rs:160-162 [time_it_once]. *)
Definition time_it_once (t : N) : outcome N := bench_time [t].
