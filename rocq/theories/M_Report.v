(** poppy/src/bin/poppy.rs:464-472, 526, 541, 554-555: what bench prints about its size and its speed. *)
From Verif Require Export M_Timing.
Open Scope N_scope.

(** bin/poppy.rs:464, 472: the number printed after "test size". *)
Definition printed_test_size (a : bench_args) (entries : list (list byte)) : usize :=
  match ba_test_size a with Some n => n | None => len entries end.
(** bin/poppy.rs:526: mutated_lines.len() as f64 / query_dur.as_secs_f64(). *)
Definition qps (n : N) (dur : N) : spec_float := f_div (f_of_u64 n) (as_secs_f64 dur).
(** bin/poppy.rs:541, 554: the speeds of the conditions, averaged and rounded. *)
Definition avg_qps (n : N) (durs : list N) : spec_float := f_round (stat_mean (map (qps n) durs)).
