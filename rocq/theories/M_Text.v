(** Printed text: poppy/src/utils.rs (Display for ByteSize), poppy/src/bloom.rs (Display for OptLevel) and the lines of [show]. *)
From Coq Require Import String Ascii.
From Verif Require Export M_Cli.
Open Scope N_scope.

Fixpoint bytes_of (s : string) : list byte :=
  match s with EmptyString => [] | String c r => N_of_ascii c :: bytes_of r end.

(** std: Display of an unsigned integer, most significant digit first, no padding. [dec_aux] is given one step more than the
    number has bits. *)
Fixpoint dec_aux (k : nat) (n : N) (acc : list byte) : list byte :=
  match k with
  | O => acc
  | S k => let acc := (48 + n mod 10) :: acc in if n <? 10 then acc else dec_aux k (n / 10) acc
  end.
Definition dec (n : N) : list byte := dec_aux (S (N.size_nat n)) n [].
(** std: [{:.1}] of a float rounds its exact value to tenths, ties to even. [half_even n e] is n * 2^e rounded to an integer. *)
Definition half_even (n : N) (e : Z) : N :=
  if (0 <=? e)%Z then n * 2 ^ Z.to_N e
  else let d := 2 ^ Z.to_N (- e) in
       let q := n / d in let r := n mod d in
       if 2 * r <? d then q else if d <? 2 * r then q + 1 else if N.even q then q else q + 1.
Definition one_decimal (t : N) : list byte := dec (t / 10) ++ [46; 48 + t mod 10].
Definition sign_text (s : bool) : list byte := if s then [45] else [].
Definition fmt_1 (x : spec_float) : list byte :=
  match x with
  | S754_zero s => sign_text s ++ one_decimal 0
  | S754_finite s m e => sign_text s ++ one_decimal (half_even (10 * Npos m) e)
  | S754_infinity s => sign_text s ++ bytes_of "inf"
  | S754_nan => bytes_of "NaN"
  end.

(** utils.rs:83-90 [unit_str]. *)
Definition bz_unit_str (s : byte_size) : list byte :=
  match s with
  | Bytes _ => bytes_of "B"
  | Kilo _ => bytes_of "KB"
  | Mega _ => bytes_of "MB"
  | Giga _ => bytes_of "GB"
  end.
(** utils.rs:52-56 [Display]. *)
Definition bz_text (s : byte_size) : list byte := fmt_1 (bz_in_unit s) ++ bz_unit_str s.

(** bloom.rs:62-77 [OptLevel::as_str] and its Display. *)
Definition opt_text (o : optlevel) : list byte :=
  match o with
  | ONone => bytes_of "none"
  | OSpace => bytes_of "space"
  | OSpeed => bytes_of "speed"
  | OBest => bytes_of "best"
  end.

(** bin/poppy.rs:153-176 [show_bf_properties]: six lines, each a label and a value. Display of an f64 (shortest decimal that reads
    back as the same number) is the parameter [df]. *)
Definition tab_line (label : string) (v : list byte) : list byte := [9] ++ bytes_of label ++ v ++ [10].
Definition show_text (df : f64_bits -> list byte) (s : shown) : list byte :=
  tab_line "version                                  : " (dec (sh_version s)) ++
  tab_line "capacity (desired number of elements)    : " (dec (sh_capacity s)) ++
  tab_line "n (estimated number of elements)         : " (dec (sh_count s)) ++
  tab_line "fpp (false positive probability)         : " (df (sh_fpp s)) ++
  tab_line "Length of data                           : " (bz_text (sh_data s)) ++
  tab_line "Size of bloom filter                     : " (bz_text (sh_size s)).
(** bin/poppy.rs:557-562. *)
Definition show_output (df : f64_bits -> list byte) (pr : profile) (w : fs) (name : list byte) (p : path) : outcome (list byte) :=
  let? s := cmd_show pr w p in Ok (bytes_of "File: " ++ name ++ [10] ++ show_text df s).
