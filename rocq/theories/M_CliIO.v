(** The commands of bin/poppy.rs again, when files can fail to open and reading them gives short reads, is interrupted or fails.
    M_Cli takes the content of a file for what is read; here each opening gives a medium (M_BufRead.v) of unknown behaviour, so
    that a command is a relation. Runs that never end (C85_broken_count) have no outcome. *)
From Verif Require Export M_Cli M_BufRead.
Open Scope N_scope.

(** A medium with this content, read from its start. *)
Definition fresh (c : list byte) (m : medium) : Prop := md_all m = c /\ md_pos m = 0.
(** The items that a loop over the lines of a medium sees until it stops at the first error. *)
Inductive seen (c : list byte) : list (option (list byte)) -> Prop :=
| seen_run : forall m n fuel ls ok, fresh c m -> buf_each n fuel m = Some (ls, ok) -> seen c (map Some ls ++ if ok : bool then [] else [None]).
(** File::open, then the loop over the lines: opening may fail for a file that is there. *)
Inductive file_seen (w : fs) (p : path) : outcome (list (option (list byte))) -> Prop :=
| fseen_err : file_seen w p (Err IoError)
| fseen_ok : forall c l, w p = Some c -> seen c l -> file_seen w p (Ok l).
(** File::open, then BloomFilter::from_reader. *)
Inductive file_load (pr : profile) (w : fs) (p : path) : outcome bloom -> Prop :=
| fload_err : file_load pr w p (Err IoError)
| fload_ok : forall c m fuel r, w p = Some c -> fresh c m -> buf_load fuel pr m false = Some r -> file_load pr w p r.

(** bin/poppy.rs:218-230 [process_file]. *)
Inductive process_io (pr : profile) (wy : hasher) (w : fs) (f : bloom) (p : path) : bloom * outcome unit -> Prop :=
| process_err : forall e, file_seen w p (Err e) -> process_io pr wy w f p (f, Err e)
| process_ok : forall l, file_seen w p (Ok l) -> process_io pr wy w f p (insert_lines pr wy f l).
(** bin/poppy.rs:259-265. *)
Inductive worker_io (pr : profile) (wy : hasher) (w : fs) : bloom -> list path -> outcome bloom -> Prop :=
| worker_done : forall f, worker_io pr wy w f [] (Ok f)
| worker_next : forall f p r f' o, process_io pr wy w f p (f', Ok tt) -> worker_io pr wy w f' r o -> worker_io pr wy w f (p :: r) o
| worker_err : forall f p r f' e, process_io pr wy w f p (f', Err e) -> worker_io pr wy w f (p :: r) (Err e)
| worker_panic : forall f p r f', process_io pr wy w f p (f', Panic) -> worker_io pr wy w f (p :: r) Panic.
(** bin/poppy.rs:232-282. *)
Inductive parallel_io (pr : profile) (L : libm) (wy : hasher) (par : parallelism) (w : fs) (f : bloom) (files : list path) (jobs : usize) : outcome bloom -> Prop :=
| par_none : files = [] -> parallel_io pr L wy par w f files jobs (Ok f)
| par_run : forall rs, files <> [] -> Forall2 (worker_io pr wy w f) (batches files (optimal_jobs par jobs)) rs ->
    parallel_io pr L wy par w f files jobs (let? bfs := join_all rs in reduce_all pr L bfs).

(** bin/poppy.rs:203-206: the lines counted in one file ([k] is below 2^64: a longer count is left out). *)
Inductive count_io (w : fs) (p : path) : outcome usize -> Prop :=
| count_err : count_io w p (Err IoError)
| count_ok : forall c m n fuel k, w p = Some c -> fresh c m -> buf_count n fuel m = Some k -> k < two64 -> count_io w p (Ok k).
(** bin/poppy.rs:201-208. *)
Inductive count_batch_io (pr : profile) (w : fs) : usize -> list path -> outcome usize -> Prop :=
| cb_done : forall acc, count_batch_io pr w acc [] (Ok acc)
| cb_err : forall acc p r e, count_io w p (Err e) -> count_batch_io pr w acc (p :: r) (Err e)
| cb_over : forall acc p r k, count_io w p (Ok k) -> checked_add pr acc k = Panic -> count_batch_io pr w acc (p :: r) Panic
| cb_next : forall acc p r k acc' o, count_io w p (Ok k) -> checked_add pr acc k = Ok acc' -> count_batch_io pr w acc' r o -> count_batch_io pr w acc (p :: r) o.
(** bin/poppy.rs:188-216. *)
Inductive count_lines_io (pr : profile) (par : parallelism) (w : fs) (files : list path) (jobs : usize) : outcome usize -> Prop :=
| cl_run : forall rs, Forall2 (count_batch_io pr w 0) (batches files (optimal_jobs par jobs)) rs -> count_lines_io pr par w files jobs (sum_joined pr 0 rs).

(** bin/poppy.rs:292-295. *)
Inductive check_output_io (pr : profile) (w : fs) (p : path) : outcome unit -> Prop :=
| co_absent : w p = None -> check_output_io pr w p (Ok tt)
| co_open : w p <> None -> check_output_io pr w p (Err IoError)
| co_load : forall c m fuel r, w p = Some c -> fresh c m -> buf_load fuel pr m false = Some r -> check_output_io pr w p (match r with Ok _ => Ok tt | Err _ => Err NotPoppy | Panic => Panic end).
(** bin/poppy.rs:306-315: the filter of a given capacity, filled. *)
Inductive fill_io (pr : profile) (L : libm) (wy : hasher) (par : parallelism) (w : fs) (jobs : usize) (a : create_args) (capacity : usize) : outcome bloom -> Prop :=
| fill_opt : forall e, opt_of_u8 (ca_optimize a) = Err e -> fill_io pr L wy par w jobs a capacity (Err e)
| fill_make : forall o r, opt_of_u8 (ca_optimize a) = Ok o -> bf_of_params pr L (params_opt (params_version (params_new capacity (ca_probability a)) (ca_version a)) o) = r ->
    (forall b, r <> Ok b) -> fill_io pr L wy par w jobs a capacity r
| fill_run : forall o b r, opt_of_u8 (ca_optimize a) = Ok o -> bf_of_params pr L (params_opt (params_version (params_new capacity (ca_probability a)) (ca_version a)) o) = Ok b ->
    parallel_io pr L wy par w b (ca_dataset a) jobs r -> fill_io pr L wy par w jobs a capacity r.
(** bin/poppy.rs:297-316. *)
Inductive create_filter_io (pr : profile) (L : libm) (wy : hasher) (par : parallelism) (w : fs) (jobs : usize) (a : create_args) : outcome bloom -> Prop :=
| cr_output : forall e, check_output_io pr w (ca_file a) (Err e) -> create_filter_io pr L wy par w jobs a (Err e)
| cr_output_panic : check_output_io pr w (ca_file a) Panic -> create_filter_io pr L wy par w jobs a Panic
| cr_given : forall r, check_output_io pr w (ca_file a) (Ok tt) -> ca_dataset a = [] -> fill_io pr L wy par w jobs a (ca_capacity a) r -> create_filter_io pr L wy par w jobs a r
| cr_count_err : forall e, check_output_io pr w (ca_file a) (Ok tt) -> ca_dataset a <> [] -> count_lines_io pr par w (ca_dataset a) jobs (Err e) -> create_filter_io pr L wy par w jobs a (Err e)
| cr_count_panic : check_output_io pr w (ca_file a) (Ok tt) -> ca_dataset a <> [] -> count_lines_io pr par w (ca_dataset a) jobs Panic -> create_filter_io pr L wy par w jobs a Panic
| cr_counted : forall k r, check_output_io pr w (ca_file a) (Ok tt) -> ca_dataset a <> [] -> count_lines_io pr par w (ca_dataset a) jobs (Ok k) -> fill_io pr L wy par w jobs a k r -> create_filter_io pr L wy par w jobs a r.
(** bin/poppy.rs:288-319 create. *)
Inductive cmd_create_io pr L wy par (w : fs) (room : N) (jobs : usize) (a : create_args) : fs * outcome unit -> Prop :=
| create_err : forall e, create_filter_io pr L wy par w jobs a (Err e) -> cmd_create_io pr L wy par w room jobs a (w, Err e)
| create_panic : create_filter_io pr L wy par w jobs a Panic -> cmd_create_io pr L wy par w room jobs a (w, Panic)
| create_save : forall f, create_filter_io pr L wy par w jobs a (Ok f) -> cmd_create_io pr L wy par w room jobs a (save w (ca_file a) f room).

(** bin/poppy.rs:321-332: the filter after standard input, then after the files. *)
Inductive insert_stdin_io (pr : profile) (wy : hasher) (stdin : list byte) (a : insert_args) (f : bloom) : outcome bloom -> Prop :=
| is_no : ia_stdin a || is_nil (ia_inputs a) = false -> insert_stdin_io pr wy stdin a f (Ok f)
| is_run : forall l f' r, ia_stdin a || is_nil (ia_inputs a) = true -> seen stdin l -> insert_lines pr wy f l = (f', r) -> insert_stdin_io pr wy stdin a f (let? _ := r in Ok f').
Inductive insert_filter_io (pr : profile) (L : libm) (wy : hasher) (par : parallelism) (w : fs) (stdin : list byte) (jobs : usize) (a : insert_args) : outcome bloom -> Prop :=
| if_load : forall r, file_load pr w (ia_file a) r -> (forall f, r <> Ok f) -> insert_filter_io pr L wy par w stdin jobs a r
| if_stdin : forall f r, file_load pr w (ia_file a) (Ok f) -> insert_stdin_io pr wy stdin a f r -> (forall f, r <> Ok f) -> insert_filter_io pr L wy par w stdin jobs a r
| if_run : forall f f' r, file_load pr w (ia_file a) (Ok f) -> insert_stdin_io pr wy stdin a f (Ok f') -> parallel_io pr L wy par w f' (ia_inputs a) jobs r -> insert_filter_io pr L wy par w stdin jobs a r.
(** bin/poppy.rs:320-335 insert. *)
Inductive cmd_insert_io pr L wy par (w : fs) (stdin : list byte) (room : N) (jobs : usize) (a : insert_args) : fs * outcome unit -> Prop :=
| insert_err : forall e, insert_filter_io pr L wy par w stdin jobs a (Err e) -> cmd_insert_io pr L wy par w stdin room jobs a (w, Err e)
| insert_panic : insert_filter_io pr L wy par w stdin jobs a Panic -> cmd_insert_io pr L wy par w stdin room jobs a (w, Panic)
| insert_save : forall f, insert_filter_io pr L wy par w stdin jobs a (Ok f) -> cmd_insert_io pr L wy par w stdin room jobs a (save w (ia_file a) f room).

(** bin/poppy.rs:376-402: one check worker. *)
Inductive check_worker_io (wy : hasher) (w : fs) (f : bloom) (a : check_args) : list path -> list printed * outcome unit -> Prop :=
| cw_done : check_worker_io wy w f a [] ([], Ok tt)
| cw_open : forall p r e, file_seen w p (Err e) -> check_worker_io wy w f a (p :: r) ([], Err e)
| cw_stop : forall p r l out e, file_seen w p (Ok l) -> check_lines wy f a (Err IoError) l = (out, e) -> e <> Ok tt -> check_worker_io wy w f a (p :: r) (out, e)
| cw_next : forall p r l out out' e, file_seen w p (Ok l) -> check_lines wy f a (Err IoError) l = (out, Ok tt) -> check_worker_io wy w f a r (out', e) -> check_worker_io wy w f a (p :: r) (out ++ out', e).
(** bin/poppy.rs:366-409; as in M_Cli an error of one worker can cut the output of the others. *)
Inductive check_files_io (wy : hasher) (w : fs) (f : bloom) (a : check_args) (jobs : usize) : list printed -> outcome unit -> Prop :=
| cfi_none : ka_inputs a = [] -> check_files_io wy w f a jobs [] (Ok tt)
| cfi_zero : ka_inputs a <> [] -> jobs = 0 -> check_files_io wy w f a jobs [] Panic
| cfi_run : forall ws outs out,
    ka_inputs a <> [] -> jobs <> 0 ->
    Forall2 (check_worker_io wy w f a) (batches (ka_inputs a) jobs) ws ->
    (if match join_units (map snd ws) with Ok _ => true | _ => false end then outs = map fst ws else Forall2 prefix outs (map fst ws)) ->
    interleave outs out ->
    check_files_io wy w f a jobs out (join_units (map snd ws)).
(** bin/poppy.rs:337-410 check. *)
Inductive cmd_check_io (pr : profile) (wy : hasher) (w : fs) (stdin : list byte) (jobs : usize) (a : check_args) : list printed -> outcome unit -> Prop :=
| cki_load_err : forall e, file_load pr w (ka_file a) (Err e) -> cmd_check_io pr wy w stdin jobs a [] (Err e)
| cki_load_panic : file_load pr w (ka_file a) Panic -> cmd_check_io pr wy w stdin jobs a [] Panic
| cki_stdin_panic : forall f l out, file_load pr w (ka_file a) (Ok f) -> ka_stdin a || is_nil (ka_inputs a) = true -> seen stdin l ->
    check_lines wy f a Panic l = (out, Panic) -> cmd_check_io pr wy w stdin jobs a out Panic
| cki_run : forall f out1 out2 r, file_load pr w (ka_file a) (Ok f) ->
    (ka_stdin a || is_nil (ka_inputs a) = false /\ out1 = [] \/ ka_stdin a || is_nil (ka_inputs a) = true /\ exists l, seen stdin l /\ check_lines wy f a Panic l = (out1, Ok tt)) ->
    check_files_io wy w f a jobs out2 r ->
    cmd_check_io pr wy w stdin jobs a (out1 ++ out2) r.
