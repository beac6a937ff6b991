(** poppy/src/bin/poppy.rs: the command line tool; and the file functions of python/src/lib.rs. *)
From Verif Require Export M_Bloom M_Lines M_Utils.
Open Scope N_scope.

(** The file system seen by the tool: path -> content, None when there is no readable file. *)
Notation path := (list N) (only parsing).
Definition fs := path -> option (list byte).
Definition fs_set (w : fs) (p : path) (c : list byte) : fs := fun q => if list_eqb p q then Some c else w q.
(** File::open + reading it (the only errors here are a missing file and invalid UTF-8; M_CliIO.v has files that fail otherwise, C86, C87). *)
Definition fs_open (w : fs) (p : path) : outcome (list byte) :=
  match w p with Some c => Ok c | None => Err IoError end.

(** The environment: thread::available_parallelism (None when it fails). *)
Definition parallelism := option usize.

(** bin/poppy.rs:178-186 [optimal_jobs] (a NonZeroUsize when available). *)
Definition optimal_jobs (par : parallelism) (jobs : usize) : usize :=
  if jobs =? 0 then match par with Some j => N.max j 1 | None => 1 end else jobs.

(** slice::chunks(n); [fuel] >= length suffices. chunks panics on n = 0, which max(_, 1) excludes. *)
Fixpoint chunks_fuel {A} (fuel : nat) (n : nat) (l : list A) : list (list A) :=
  match fuel with
  | O => []
  | S fuel' => match l with
               | [] => []
               | _ => firstn n l :: chunks_fuel fuel' n (skipn n l)
               end
  end.
Definition chunks {A} (n : N) (l : list A) : list (list A) := chunks_fuel (length l) (N.to_nat n) l.
(** bin/poppy.rs:195, 244: files.chunks(max(files.len() / jobs, 1)). *)
Definition batches {A} (files : list A) (jobs : usize) : list (list A) := chunks (N.max (len files / jobs) 1) files.

(** bin/poppy.rs:201-208, one worker of [count_lines_parallel]. *)
Fixpoint count_lines_batch (pr : profile) (w : fs) (acc : usize) (batch : list path) : outcome usize :=
  match batch with
  | [] => Ok acc
  | f :: r => let? c := fs_open w f in
              let? acc := checked_add pr acc (len (lines c)) in count_lines_batch pr w acc r
  end.
(** bin/poppy.rs:211-213: join in order; a panic in the worker makes [expect] panic. *)
Fixpoint sum_joined (pr : profile) (acc : usize) (l : list (outcome usize)) : outcome usize :=
  match l with
  | [] => Ok acc
  | x :: r => let? c := x in let? acc := checked_add pr acc c in sum_joined pr acc r
  end.
(** bin/poppy.rs:188-216 [count_lines_parallel]. *)
Definition count_lines_parallel (pr : profile) (par : parallelism) (w : fs) (files : list path) (jobs : usize)
  : outcome usize :=
  sum_joined pr 0 (map (count_lines_batch pr w 0) (batches files (optimal_jobs par jobs))).

(** bin/poppy.rs:224-227 and 326-328: insert the lines one by one, stopping at the first error. *)
Fixpoint insert_lines (pr : profile) (wy : hasher) (f : bloom) (l : list (option (list byte))) : bloom * outcome unit :=
  match l with
  | [] => (f, Ok tt)
  | None :: _ => (f, Err IoError)
  | Some line :: r => match bf_insert_bytes pr wy f line with
                      | (f', Ok _) => insert_lines pr wy f' r
                      | (f', Err e) => (f', Err e)
                      | (f', Panic) => (f', Panic)
                      end
  end.
(** bin/poppy.rs:218-230 [process_file]. *)
Definition process_file (pr : profile) (wy : hasher) (w : fs) (f : bloom) (input : path) : bloom * outcome unit :=
  match fs_open w input with
  | Ok c => insert_lines pr wy f (lines c)
  | Err e => (f, Err e)
  | Panic => (f, Panic)
  end.
(** bin/poppy.rs:259-265, one worker of [parallel_insert] run to completion. *)
Fixpoint worker (pr : profile) (wy : hasher) (w : fs) (f : bloom) (batch : list path) : outcome bloom :=
  match batch with
  | [] => Ok f
  | i :: r => match process_file pr wy w f i with
              | (f', Ok _) => worker pr wy w f' r
              | (_, Err e) => Err e
              | (_, Panic) => Panic
              end
  end.
(** bin/poppy.rs:270-273: every worker is joined; a worker that failed or panicked makes [unwrap]/[expect] panic. *)
Fixpoint join_all {A} (l : list (outcome A)) : outcome (list A) :=
  match l with
  | [] => Ok []
  | Ok a :: r => let? r' := join_all r in Ok (a :: r')
  | _ :: _ => Panic
  end.
(** bin/poppy.rs:275-279: merge the popped filters into the last one. *)
Fixpoint reduce (pr : profile) (L : libm) (out : bloom) (l : list bloom) : outcome bloom :=
  match l with
  | [] => Ok out
  | f :: r => match bf_union_merge pr L out f with
              | (out', Ok _) => reduce pr L out' r
              | (_, Err e) => Err e
              | (_, Panic) => Panic
              end
  end.
Definition reduce_all (pr : profile) (L : libm) (bfs : list bloom) : outcome bloom :=
  match rev bfs with
  | [] => Panic                                  (* expect("bfs must always have one item") *)
  | out :: r => reduce pr L out r
  end.
(** bin/poppy.rs:232-282 [parallel_insert], the workers' results being those of the workers run one after the other;
    [Interleave] below gives the small-step semantics of concurrently running workers. *)
Definition parallel_insert (pr : profile) (L : libm) (wy : hasher) (par : parallelism) (w : fs) (f : bloom)
  (files : list path) (jobs : usize) : outcome bloom :=
  match files with
  | [] => Ok f
  | _ => let? bfs := join_all (map (worker pr wy w f) (batches files (optimal_jobs par jobs))) in
         reduce_all pr L bfs
  end.

(** ** Workers as concurrently running threads (bin/poppy.rs:255-267). One step of a worker opens a file, or inserts
    one line of the file being read. The only shared thing is the file system, which nobody writes meanwhile. *)
Record thread := { t_filter : bloom; t_lines : list (option (list byte)); t_files : list path }.
Inductive tstate := Running (t : thread) | Finished (r : outcome bloom).
Definition thread_step (pr : profile) (wy : hasher) (w : fs) (s : tstate) : option tstate :=
  match s with
  | Finished _ => None
  | Running t =>
    Some (match t_lines t with
          | None :: _ => Finished (Err IoError)
          | Some line :: r =>
            match bf_insert_bytes pr wy (t_filter t) line with
            | (f', Ok _) => Running {| t_filter := f'; t_lines := r; t_files := t_files t |}
            | (_, Err e) => Finished (Err e)
            | (_, Panic) => Finished Panic
            end
          | [] =>
            match t_files t with
            | [] => Finished (Ok (t_filter t))
            | i :: r => match fs_open w i with
                        | Ok c => Running {| t_filter := t_filter t; t_lines := lines c; t_files := r |}
                        | Err e => Finished (Err e)
                        | Panic => Finished Panic
                        end
            end
          end)
  end.
(** The scheduler lets any worker that can run make a step. *)
Inductive pool_step (pr : profile) (wy : hasher) (w : fs) : list tstate -> list tstate -> Prop :=
| pool_step_at : forall a s s' b,
    thread_step pr wy w s = Some s' -> pool_step pr wy w (a ++ s :: b) (a ++ s' :: b).
Inductive pool_steps (pr : profile) (wy : hasher) (w : fs) : list tstate -> list tstate -> Prop :=
| pool_refl : forall p, pool_steps pr wy w p p
| pool_trans : forall p q r, pool_step pr wy w p q -> pool_steps pr wy w q r -> pool_steps pr wy w p r.
Definition spawn_all (f : bloom) (bs : list (list path)) : list tstate :=
  map (fun b => Running {| t_filter := f; t_lines := []; t_files := b |}) bs.
Definition results (p : list tstate) : option (list (outcome bloom)) :=
  fold_right (fun s acc => match s, acc with Finished r, Some l => Some (r :: l) | _, _ => None end) (Some []) p.
(** [parallel_insert] as a relation: some schedule of the workers leads to this outcome. *)
Inductive parallel_insert_run (pr : profile) (L : libm) (wy : hasher) (par : parallelism) (w : fs) (f : bloom)
  (files : list path) (jobs : usize) : outcome bloom -> Prop :=
| run_empty : files = [] -> parallel_insert_run pr L wy par w f files jobs (Ok f)
| run_pool : forall p rs,
    files <> [] ->
    pool_steps pr wy w (spawn_all f (batches files (optimal_jobs par jobs))) p ->
    results p = Some rs ->
    parallel_insert_run pr L wy par w f files jobs (let? bfs := join_all rs in reduce_all pr L bfs).

(** ** Saving: File::create then [write] (bin/poppy.rs:317-318, 333-334; lib.rs:122-125).
    [room] is the number of bytes the device accepts; File::create is assumed to succeed. *)
Definition save (w : fs) (p : path) (f : bloom) (room : N) : fs * outcome unit :=
  let '(s, r) := write_to_sink (bf_write_calls f) {| sk_got := []; sk_room := room |} in
  (fs_set w p (sk_got s), r).
(** File contents a crash (kill, power loss) during [save] can leave: the old file before File::create,
    afterwards what has reached the file so far. *)
Inductive crash_content (w : fs) (p : path) (f : bloom) : option (list byte) -> Prop :=
| crash_before : crash_content w p f (w p)
| crash_during : forall n : nat, crash_content w p f (Some (firstn n (bf_write f))).

(** ** Commands. *)
(** Arguments of create (bin/poppy.rs:60-85). *)
Record create_args := { ca_version : byte; ca_capacity : usize; ca_probability : f64_bits; ca_optimize : byte;
                        ca_file : path; ca_dataset : list path }.
(** bin/poppy.rs:292-295: an existing output must be a filter. *)
Definition check_output (pr : profile) (w : fs) (p : path) : outcome unit :=
  match w p with
  | None => Ok tt
  | Some c => match bf_from_reader pr c with
              | Ok _ => Ok tt
              | Err _ => Err NotPoppy
              | Panic => Panic
              end
  end.
(** bin/poppy.rs:297-316: everything create does before opening its output. *)
Definition create_filter (pr : profile) (L : libm) (wy : hasher) (par : parallelism) (w : fs) (jobs : usize)
  (a : create_args) : outcome bloom :=
  let? _ := check_output pr w (ca_file a) in
  let? capacity := match ca_dataset a with
                   | [] => Ok (ca_capacity a)
                   | _ => count_lines_parallel pr par w (ca_dataset a) jobs
                   end in
  let? opt := opt_of_u8 (ca_optimize a) in
  let? b := bf_of_params pr L (params_opt (params_version (params_new capacity (ca_probability a)) (ca_version a)) opt) in
  parallel_insert pr L wy par w b (ca_dataset a) jobs.
(** bin/poppy.rs:288-319 create. *)
Definition cmd_create pr L wy par (w : fs) (room : N) (jobs : usize) (a : create_args) : fs * outcome unit :=
  match create_filter pr L wy par w jobs a with
  | Ok bf => save w (ca_file a) bf room
  | Err e => (w, Err e)
  | Panic => (w, Panic)
  end.

(** Arguments of insert (bin/poppy.rs:87-97). *)
Record insert_args := { ia_stdin : bool; ia_file : path; ia_inputs : list path }.
Definition is_nil {A} (l : list A) : bool := match l with [] => true | _ => false end.
(** bin/poppy.rs:321-332. *)
Definition insert_filter (pr : profile) (L : libm) (wy : hasher) (par : parallelism) (w : fs) (stdin : list byte)
  (jobs : usize) (a : insert_args) : outcome bloom :=
  let? c := fs_open w (ia_file a) in
  let? bf := bf_from_reader pr c in
  let? bf := if ia_stdin a || is_nil (ia_inputs a)
             then let '(bf', r) := insert_lines pr wy bf (lines stdin) in let? _ := r in Ok bf'
             else Ok bf in
  parallel_insert pr L wy par w bf (ia_inputs a) jobs.
(** bin/poppy.rs:320-335 insert. *)
Definition cmd_insert pr L wy par (w : fs) (stdin : list byte) (room : N) (jobs : usize) (a : insert_args)
  : fs * outcome unit :=
  match insert_filter pr L wy par w stdin jobs a with
  | Ok bf => save w (ia_file a) bf room
  | Err e => (w, Err e)
  | Panic => (w, Panic)
  end.

(** Arguments of check (bin/poppy.rs:99-115). *)
Record check_args := { ka_stdin : bool; ka_silent : bool; ka_verify : bool; ka_file : path; ka_inputs : list path }.
(** What println! emits: a line, or "line: NOK" (bin/poppy.rs:350-359, 388-397). *)
Inductive printed := Plain (l : list byte) | Nok (l : list byte).
Definition check_line (wy : hasher) (f : bloom) (a : check_args) (line : list byte) : outcome (list printed) :=
  let? ok := bf_contains_bytes wy f line in
  if ka_verify a then Ok (if negb ok then [Nok line] else [])
  else Ok (if ok && negb (ka_silent a) then [Plain line] else []).
(** The lines of one input in order; what was printed before an error or panic stays printed.
    bin/poppy.rs:346-360 (stdin, where an invalid line panics: [bad] = Panic) and 384-398 ([bad] = Err). *)
Fixpoint check_lines (wy : hasher) (f : bloom) (a : check_args) (bad : outcome unit) (l : list (option (list byte)))
  : list printed * outcome unit :=
  match l with
  | [] => ([], Ok tt)
  | None :: _ => ([], bad)
  | Some line :: r =>
    match check_line wy f a line with
    | Ok out => let '(out', res) := check_lines wy f a bad r in (out ++ out', res)
    | Err e => ([], Err e)
    | Panic => ([], Panic)
    end
  end.
(** bin/poppy.rs:376-402: one check worker. *)
Fixpoint check_worker (wy : hasher) (w : fs) (f : bloom) (a : check_args) (batch : list path)
  : list printed * outcome unit :=
  match batch with
  | [] => ([], Ok tt)
  | i :: r =>
    match fs_open w i with
    | Ok c => match check_lines wy f a (Err IoError) (lines c) with
              | (out, Ok _) => let '(out', res) := check_worker wy w f a r in (out ++ out', res)
              | (out, e) => (out, e)
              end
    | Err e => ([], Err e)
    | Panic => ([], Panic)
    end
  end.
(** Interleavings of the workers' prints: println! holds the stdout lock, so lines are atomic. *)
Inductive interleave {A} : list (list A) -> list A -> Prop :=
| il_done : forall ls, Forall (fun l => l = []) ls -> interleave ls []
| il_pick : forall a x l b out, interleave (a ++ l :: b) out -> interleave (a ++ (x :: l) :: b) (x :: out).
(** bin/poppy.rs:337-410 check, as a relation to stdout and result. Once a joined worker reports an error main returns
    and the process exits, so the other workers may have printed anything up to their whole output ([cut]s). *)
Definition prefix {A} (p l : list A) : Prop := exists r, l = p ++ r.
Definition join_units (l : list (outcome unit)) : outcome unit :=
  fold_right (fun r acc => match r with Ok _ => acc | Err e => Err e | Panic => Panic end) (Ok tt) l.
(** args.jobs is used as it is: len / 0 panics (bin/poppy.rs:370). *)
Inductive check_files (wy : hasher) (w : fs) (f : bloom) (a : check_args) (jobs : usize)
  : list printed -> outcome unit -> Prop :=
| cf_none : ka_inputs a = [] -> check_files wy w f a jobs [] (Ok tt)
| cf_zero : ka_inputs a <> [] -> jobs = 0 -> check_files wy w f a jobs [] Panic
| cf_run : forall outs out,
    ka_inputs a <> [] -> jobs <> 0 ->
    let ws := map (check_worker wy w f a) (batches (ka_inputs a) jobs) in
    let res := join_units (map snd ws) in
    (if match res with Ok _ => true | _ => false end
     then outs = map fst ws else Forall2 prefix outs (map fst ws)) ->
    interleave outs out ->
    check_files wy w f a jobs out res.
Inductive cmd_check (pr : profile) (wy : hasher) (w : fs) (stdin : list byte) (jobs : usize) (a : check_args)
  : list printed -> outcome unit -> Prop :=
| ck_open : forall e, fs_open w (ka_file a) = Err e -> cmd_check pr wy w stdin jobs a [] (Err e)
| ck_load_err : forall c e, fs_open w (ka_file a) = Ok c -> bf_from_reader pr c = Err e ->
    cmd_check pr wy w stdin jobs a [] (Err e)
| ck_load_panic : forall c, fs_open w (ka_file a) = Ok c -> bf_from_reader pr c = Panic ->
    cmd_check pr wy w stdin jobs a [] Panic
| ck_stdin_panic : forall c f out, fs_open w (ka_file a) = Ok c -> bf_from_reader pr c = Ok f ->
    ka_stdin a || is_nil (ka_inputs a) = true ->
    check_lines wy f a Panic (lines stdin) = (out, Panic) ->
    cmd_check pr wy w stdin jobs a out Panic
| ck_run : forall c f out1 out2 r, fs_open w (ka_file a) = Ok c -> bf_from_reader pr c = Ok f ->
    (if ka_stdin a || is_nil (ka_inputs a) then check_lines wy f a Panic (lines stdin) else ([], Ok tt)) = (out1, Ok tt) ->
    check_files wy w f a jobs out2 r ->
    cmd_check pr wy w stdin jobs a (out1 ++ out2) r.

(** bin/poppy.rs:153-176, 557-562 show: the values printed. *)
Record shown := { sh_version : byte; sh_capacity : usize; sh_count : u64; sh_fpp : f64_bits;
                  sh_data : byte_size; sh_size : byte_size }.
Definition show_bf (pr : profile) (f : bloom) : outcome shown :=
  let? size := bf_size_in_bytes pr f in
  Ok {| sh_version := bf_version f; sh_capacity := bf_capacity f; sh_count := bf_count_estimate f; sh_fpp := bf_fpp f;
        sh_data := bz_from_bytes (len (bf_data f)); sh_size := bz_from_bytes size |}.
Definition cmd_show (pr : profile) (w : fs) (p : path) : outcome shown :=
  let? c := fs_open w p in let? f := bf_partial_from_reader pr c in show_bf pr f.

(** bin/poppy.rs:423-436 bench, preparation of the data set: [line?], duplicates by wyhash dropped,
    stop once more than [limit] bytes were taken. [marked] lists the hashes seen. *)
Fixpoint bench_entries (pr : profile) (wyh : list byte -> u64) (limit : byte_size) (size : usize) (marked : list u64)
  (l : list (option (list byte))) : outcome (list (list byte)) :=
  match l with
  | [] => Ok []
  | None :: _ => Err IoError
  | Some line :: r =>
    let h := wyh line in
    match bz_cmp (bz_from_bytes size) limit with
    | Gt => Ok []
    | _ => if existsb (N.eqb h) marked then bench_entries pr wyh limit size marked r
           else let? size := checked_add pr size (len line) in
                let? es := bench_entries pr wyh limit size (h :: marked) r in Ok (line :: es)
    end
  end.
(** bin/poppy.rs:417-420. *)
Definition bench_limit (pr : profile) (size_mb : usize) : outcome byte_size :=
  bz_from_mb pr (if size_mb =? 0 then u64_max else size_mb).
(** bin/poppy.rs:451-459: the filter benchmarked when no file is given. *)
Definition bench_filter (pr : profile) (L : libm) (wy : hasher) (version : byte) (fpp : f64_bits) (opt : byte)
  (entries : list (list byte)) : outcome bloom :=
  let? o := opt_of_u8 opt in
  let? b := bf_of_params pr L (params_opt (params_version (params_new (len entries) fpp) version) o) in
  let '(b', r) := bf_fill pr wy b entries in let? _ := r in Ok b'.

(** ** python/src/lib.rs: files. *)
(** lib.rs:36-42 [load] (a missing file raises OSError). *)
Definition py_load (pr : profile) (w : fs) (p : path) : outcome bloom := let? c := fs_open w p in bf_from_reader pr c.
(** lib.rs:121-125 [save]. *)
Definition py_save (w : fs) (p : path) (f : bloom) (room : N) : fs * outcome unit := save w p f room.
