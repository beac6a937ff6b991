(** poppy/src/bin/poppy.rs:411-556: the bench command. Timing is left out, except that [--runs 0] panics. *)
From Verif Require Export M_Cli.
Open Scope N_scope.

(** Arguments of bench (bin/poppy.rs:117-145). *)
Record bench_args := { ba_size_mb : usize; ba_test_size : option usize; ba_runs : N; ba_fp_tol : f64_bits;
                       ba_version : byte; ba_fpp : f64_bits; ba_opt : byte; ba_file : option path }.
(** What the random generator draws (bin/poppy.rs:483-505): in condition [c] (0 to 9), for line [i], a number in 0..=100, and
    the values xored to its bytes. *)
Record draws := { dr_roll : N -> N -> N; dr_key : N -> N -> N -> byte }.

(** bin/poppy.rs:497-500: every byte is xored with a value drawn from 0..=255. *)
Fixpoint xor_bytes (k : N -> byte) (j : N) (l : list byte) : list byte :=
  match l with
  | [] => []
  | b :: r => N.lxor b (k j) :: xor_bytes k (j + 1) r
  end.
(** bin/poppy.rs:491-504. The result may not be UTF-8 any more: [as_bytes_mut] is unsafe for that reason. *)
Fixpoint mutate_lines (d : draws) (c : N) (i : N) (l : list (list byte)) : list (bool * list byte) :=
  match l with
  | [] => []
  | e :: r => (if dr_roll d c i <? 10 * (c + 1) then (true, xor_bytes (dr_key d c i) 0 e) else (false, e))
              :: mutate_lines d c (i + 1) r
  end.
(** bin/poppy.rs:511-521: only mutated lines are counted. *)
Fixpoint bench_measure (pr : profile) (wy : hasher) (b : bloom) (s : stats) (l : list (bool * list byte)) : outcome stats :=
  match l with
  | [] => Ok s
  | (m, e) :: r =>
    let? is_in := bf_contains_bytes wy b e in
    let? s := if m : bool then stats_inc pr s (if is_in : bool then EvFp else EvTn) else Ok s in
    bench_measure pr wy b s r
  end.
(** bin/poppy.rs:484-541, one condition; bin/poppy.rs:526-532 calls [benchmark] (utils.rs:131-158), which for zero runs asks for
    the mean of nothing, NaN, and Duration::from_secs_f64 panics on it. With at least one run it is taken to return: M_Timing.v
    models the computation, and C79_runs shows for which times it does. *)
Definition bench_condition (pr : profile) (wy : hasher) (d : draws) (b : bloom) (runs : N) (test : list (list byte)) (c : N)
  : outcome spec_float :=
  let? s := bench_measure pr wy b stats_new (mutate_lines d c 0 test) in
  if runs =? 0 then Panic else Ok (stats_fp_rate s).
Fixpoint bench_rates (pr : profile) (wy : hasher) (d : draws) (b : bloom) (runs : N) (test : list (list byte)) (cs : list N)
  : outcome (list spec_float) :=
  match cs with
  | [] => Ok []
  | c :: r => let? x := bench_condition pr wy d b runs test c in
              let? xs := bench_rates pr wy d b runs test r in Ok (x :: xs)
  end.
(** statrs 0.16 [Statistics::mean]: mean += (x - mean) / i; NaN for an empty list. *)
Fixpoint mean_from (i mean : spec_float) (l : list spec_float) : spec_float :=
  match l with
  | [] => mean
  | x :: r => let i := f_add i f_one in mean_from i (f_add mean (f_div (f_sub x mean) i)) r
  end.
Definition stat_mean (l : list spec_float) : spec_float :=
  match l with [] => S754_nan | _ => mean_from (S754_zero false) (S754_zero false) l end.
Definition f_is_nan (x : spec_float) : bool := match x with S754_nan => true | _ => false end.
(** bin/poppy.rs:544-552. *)
Definition bench_rejects (avg : spec_float) (fpp tol : f64_bits) : bool :=
  negb (f_is_nan avg) && SFltb (f_add (sf_of_bits fpp) (f_mul (sf_of_bits fpp) (sf_of_bits tol))) avg.

(** bin/poppy.rs:439-450: with a file, every entry must be contained. *)
Fixpoint all_contained (wy : hasher) (b : bloom) (l : list (list byte)) : outcome bool :=
  match l with
  | [] => Ok true
  | e :: r => let? ok := bf_contains_bytes wy b e in if ok : bool then all_contained wy b r else Ok false
  end.
Inductive bench_result :=
| BDone (rates : list spec_float)          (* finished, with the rates printed *)
| BMissing                                 (* "bloom filter to benchmark must contain all entries" *)
| BRate (rates : list spec_float).         (* "bloom filter fp rate is not respected" *)
(** bin/poppy.rs:411-555. [shuffle] is entries.shuffle, [wyh] the hash that tells duplicates. *)
Definition cmd_bench (pr : profile) (L : libm) (wy : hasher) (wyh : list byte -> u64) (d : draws)
  (shuffle : list (list byte) -> list (list byte)) (w : fs) (stdin : list byte) (a : bench_args) : outcome bench_result :=
  let? limit := bench_limit pr (ba_size_mb a) in
  let? entries := bench_entries pr wyh limit 0 [] (lines stdin) in
  let? b := match ba_file a with
            | Some p => let? c := fs_open w p in
                        let? b := bf_from_reader pr c in
                        let? ok := all_contained wy b entries in
                        Ok (if ok : bool then Some b else None)
            | None => let? b := bench_filter pr L wy (ba_version a) (ba_fpp a) (ba_opt a) entries in Ok (Some b)
            end in
  match b with
  | None => Ok BMissing
  | Some b =>
    let? _ := show_bf pr b in
    let test := firstn (N.to_nat (match ba_test_size a with Some n => n | None => len entries end)) (shuffle entries) in
    let? rates := bench_rates pr wy d b (ba_runs a) test [0; 1; 2; 3; 4; 5; 6; 7; 8; 9] in
    Ok (if bench_rejects (stat_mean rates) (bf_fpp b) (ba_fp_tol a) then BRate rates else BDone rates)
  end.
