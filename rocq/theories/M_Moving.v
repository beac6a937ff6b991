(** poppy/src/bin/poppy.rs:288-319: create while other programs write to the files. Four states of the file system: [w0] when the
    output is looked at, [w1] when the lines of the dataset are counted, [w2] when they are inserted, [w3] when the filter is
    saved. In [w1] and [w2] a file is what the pass read of it until its end, so it may also grow while it is read; a file named twice
    is taken to be read alike both times. *)
From Verif Require Export M_Cli.
Open Scope N_scope.

(** bin/poppy.rs:288-316, as [create_filter]. *)
Definition create_filter_moving (pr : profile) (L : libm) (wy : hasher) (par : parallelism) (w0 w1 w2 : fs) (jobs : usize)
  (a : create_args) : outcome bloom :=
  let? _ := check_output pr w0 (ca_file a) in
  let? capacity := match ca_dataset a with
                   | [] => Ok (ca_capacity a)
                   | _ => count_lines_parallel pr par w1 (ca_dataset a) jobs
                   end in
  let? opt := opt_of_u8 (ca_optimize a) in
  let? b := bf_of_params pr L (params_opt (params_version (params_new capacity (ca_probability a)) (ca_version a)) opt) in
  parallel_insert pr L wy par w2 b (ca_dataset a) jobs.
(** bin/poppy.rs:288-319; File::create (317) empties whatever is there by then. *)
Definition cmd_create_moving pr L wy par (w0 w1 w2 w3 : fs) (room : N) (jobs : usize) (a : create_args) : fs * outcome unit :=
  match create_filter_moving pr L wy par w0 w1 w2 jobs a with
  | Ok bf => save w3 (ca_file a) bf room
  | Err e => (w3, Err e)
  | Panic => (w3, Panic)
  end.
