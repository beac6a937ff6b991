(** The exit status of a run of the program (bin/poppy.rs:284-565). *)
From Verif Require Export M_Args.
Open Scope N_scope.

(** bin/poppy.rs:284: main returns Result<(), anyhow::Error>, which std turns into status 0 or 1 (ExitCode::SUCCESS, FAILURE); a panic of
    the main thread ends with 101. The panics of workers reach the main thread where they are joined (bin/poppy.rs:265, 405). *)
Definition code {A} (r : outcome A) : N := match r with Ok _ => 0 | Err _ => 1 | Panic => 101 end.
(** bench returns errors of its own (bin/poppy.rs:444-446, 547-551). *)
Definition bench_code (r : outcome bench_result) : N := match r with Ok (BDone _) => 0 | Ok _ => 1 | r => code r end.
(** clap ends with 0 after printing help and with 2 after a usage error; the model does not tell them apart. *)
Definition status (e : ending) (n : N) : Prop :=
  match e with
  | Usage => n = 0 \/ n = 2
  | Wrote r | Checked _ r => n = code r
  | Benched r => n = bench_code r
  | Showed r => n = code r
  end.
