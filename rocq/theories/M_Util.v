(** poppy/src/bloom/utils.rs: sizing formulas. *)
From Verif Require Export M_Hash.
Open Scope N_scope.

(** f64::ln(2.0) and f64::ln(2.0).powf(2.0) as used below. *)
Definition ln2 (L : libm) : spec_float := lm_ln L f_two.
Definition ln2_sq (L : libm) : spec_float := lm_powf L (ln2 L) f_two.

(** utils.rs:1-4 [k]: ceil(ln(2.0) * bit_size as f64 / (cap as f64)) as u64. *)
Definition bu_k (L : libm) (bit_size cap : u64) : u64 :=
  f_to_u64 (f_ceil (f_div (f_mul (ln2 L) (f_of_u64 bit_size)) (f_of_u64 cap))).

(** utils.rs:6-11 [bit_size]. *)
Definition bu_bit_size (L : libm) (cap : u64) (proba : f64_bits) : u64 :=
  f_to_u64 (f_abs (f_ceil (f_div (f_mul (f_of_u64 cap) (lm_ln L (sf_of_bits proba))) (ln2_sq L)))).

(** utils.rs:13-19 [estimate_p]. *)
Definition bu_estimate_p (L : libm) (n bit_size : u64) : spec_float :=
  let k := bu_k L bit_size n in
  lm_powf L (f_sub f_one (lm_exp L (f_div (f_mul (f_opp (f_of_u64 k)) (f_of_u64 n)) (f_of_u64 bit_size))))
          (f_of_u64 k).

(** utils.rs:21-24 [cap_from_bit_size]. *)
Definition bu_cap_from_bit_size (L : libm) (bit_size : u64) (proba : f64_bits) : u64 :=
  f_to_u64 (f_abs (f_div (f_mul (f_of_u64 bit_size) (ln2_sq L)) (lm_ln L (sf_of_bits proba)))).

(** The estimate used by update_count and count_common_entries (v1.rs:331-333, 403-405, v2.rs:567-569,
    582-584): (-(bits as f64 * ln(1.0 - (ones as f64 / bits as f64))) / n_hash as f64) as u64. *)
Definition estimate_count (L : libm) (bits ones n_hash : u64) : u64 :=
  f_to_u64
    (f_div (f_opp (f_mul (f_of_u64 bits)
                         (lm_ln L (f_sub f_one (f_div (f_of_u64 ones) (f_of_u64 bits))))))
           (f_of_u64 n_hash)).
