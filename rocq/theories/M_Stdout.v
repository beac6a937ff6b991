(** println! of the check command over a standard output that can fail (bin/poppy.rs:350-359, 388-397).

    From std, written from memory of its sources: [Stdout] is one LineWriter of 1024 bytes behind a lock that println! holds; print
    errors panic; at the end of the process what is still buffered is written if that works. Interrupted writes, which std repeats,
    are left out. *)
From Verif Require Export M_Cli.
Open Scope N_scope.

(** Answer of the system to one write call: it takes [n] bytes, or all if there are fewer, and [n] = 0 is an error or a write of
    nothing; or it says that the descriptor is not open for writing (EBADF), which std takes as success. *)
Inductive answer := Takes (n : N) | Closed.
(** The answers to the first, second, ... write call. *)
Definition script := nat -> answer.
(** Bytes that arrived, write calls made, bytes buffered. *)
Record stdout := { so_got : list byte; so_calls : nat; so_buf : list byte }.
Definition so_new : stdout := {| so_got := []; so_calls := 0; so_buf := [] |}.
Definition LINE_CAP : N := 1024.

(** Write::write_all of the raw output: write until all is taken; [fuel] bounds the number of calls, each takes a byte. Gives the bytes
    not taken. *)
Fixpoint raw_loop (fuel : nat) (s : script) (o : stdout) (b : list byte) : stdout * list byte * bool :=
  match fuel, b with
  | _, [] => (o, [], true)
  | O, _ => (o, b, false)
  | S fuel, _ =>
    let o1 := {| so_got := so_got o; so_calls := S (so_calls o); so_buf := so_buf o |} in
    match s (so_calls o) with
    | Closed => (o1, [], true)
    | Takes n =>
      if n =? 0 then (o1, b, false)
      else raw_loop fuel s {| so_got := so_got o ++ firstn (N.to_nat n) b; so_calls := S (so_calls o); so_buf := so_buf o |}
                    (skipn (N.to_nat n) b)
    end
  end.
Definition raw_write_all (s : script) (o : stdout) (b : list byte) : stdout * list byte * bool := raw_loop (length b) s o b.
Definition so_with_buf (o : stdout) (b : list byte) : stdout := {| so_got := so_got o; so_calls := so_calls o; so_buf := b |}.
(** BufWriter::flush_buf: what was not taken stays in the buffer. *)
Definition so_flush (s : script) (o : stdout) : stdout * bool :=
  let '(o, rest, ok) := raw_write_all s o (so_buf o) in (so_with_buf o rest, ok).
(** BufWriter::write_all. *)
Definition so_buffer (s : script) (o : stdout) (b : list byte) : stdout * bool :=
  let spare := LINE_CAP - len (so_buf o) in
  if len b <? spare then (so_with_buf o (so_buf o ++ b), true)
  else
    let '(o, ok) := if spare <? len b then so_flush s o else (o, true) in
    if negb ok then (o, false)
    else if LINE_CAP <=? len b then let '(o, _, ok) := raw_write_all s o b in (o, ok)
    else (so_with_buf o (so_buf o ++ b), true).
(** Bytes up to and with the last newline, and those after it. *)
Fixpoint split_line (b : list byte) : option (list byte * list byte) :=
  match b with
  | [] => None
  | x :: r => match split_line r with
              | Some (l, t) => Some (x :: l, t)
              | None => if x =? 10 then Some ([x], r) else None
              end
  end.
(** LineWriterShim::flush_if_completed_line. *)
Definition so_completed (s : script) (o : stdout) : stdout * bool :=
  if last (so_buf o) 0 =? 10 then so_flush s o else (o, true).
(** LineWriterShim::write_all. *)
Definition so_write_all (s : script) (o : stdout) (b : list byte) : stdout * bool :=
  match split_line b with
  | None => let '(o, ok) := so_completed s o in if ok then so_buffer s o b else (o, false)
  | Some (l, t) =>
    let '(o, ok) := match so_buf o with
                    | [] => let '(o, _, ok) := raw_write_all s o l in (o, ok)
                    | _ => let '(o, ok) := so_buffer s o l in if ok then so_flush s o else (o, false)
                    end in
    if ok then so_buffer s o t else (o, false)
  end.
(** println!("{line}") and println!("{line}: NOK"): the formatter hands over the pieces one by one. *)
Definition pieces (x : printed) : list byte * list byte :=
  match x with Plain l => (l, [10]) | Nok l => (l, [58; 32; 78; 79; 75; 10]) end.
Definition so_println (s : script) (o : stdout) (x : printed) : stdout * bool :=
  let '(a, b) := pieces x in
  let '(o, ok) := so_write_all s o a in if ok then so_write_all s o b else (o, false).

(** Threads that print, each the lines of its list, one println! after the other. [failed]: some thread has panicked or returned an
    error, after which main may end the process at any moment. A thread whose println! fails panics. The last argument says whether
    all threads ended well. *)
Inductive printing (s : script) : bool -> list (list printed) -> stdout -> stdout -> bool -> Prop :=
| pr_done : forall failed ls o, Forall (fun l => l = []) ls -> printing s failed ls o o (negb failed)
| pr_exit : forall ls o, printing s true ls o o false
| pr_line : forall failed a x l b o o1 o2 ok, so_println s o x = (o1, true) ->
    printing s failed (a ++ l :: b) o1 o2 ok -> printing s failed (a ++ (x :: l) :: b) o o2 ok
| pr_panic : forall failed a x l b o o1 o2 ok, so_println s o x = (o1, false) ->
    printing s true (a ++ [] :: b) o1 o2 ok -> printing s failed (a ++ (x :: l) :: b) o o2 ok.
Definition is_ok (r : outcome unit) : bool := match r with Ok _ => true | _ => false end.
(** The end of the process: the rest of the buffer, unless another thread holds the lock just then. *)
Definition so_exit (s : script) (o o' : stdout) : Prop := o' = o \/ o' = fst (so_flush s o).

(** bin/poppy.rs:337-410 check with its standard output; the last argument says whether the exit status is 0. *)
Inductive check_prints (pr : profile) (wy : hasher) (w : fs) (stdin : list byte) (jobs : usize) (a : check_args) (s : script)
  : stdout -> bool -> Prop :=
| cp_load : (forall c f, fs_open w (ka_file a) = Ok c -> bf_from_reader pr c <> Ok f) -> check_prints pr wy w stdin jobs a s so_new false
| cp_stdin : forall c f out1 r o o' ok, fs_open w (ka_file a) = Ok c -> bf_from_reader pr c = Ok f ->
    ka_stdin a || is_nil (ka_inputs a) = true -> check_lines wy f a Panic (lines stdin) = (out1, r) ->
    printing s false [out1] so_new o ok -> ok && is_ok r = false -> so_exit s o o' -> check_prints pr wy w stdin jobs a s o' false
| cp_zero : forall c f out1 o o', fs_open w (ka_file a) = Ok c -> bf_from_reader pr c = Ok f ->
    (if ka_stdin a || is_nil (ka_inputs a) then check_lines wy f a Panic (lines stdin) else ([], Ok tt)) = (out1, Ok tt) ->
    printing s false [out1] so_new o true -> ka_inputs a <> [] -> jobs = 0 -> so_exit s o o' ->
    check_prints pr wy w stdin jobs a s o' false
| cp_run : forall c f out1 o1 o o' ok, fs_open w (ka_file a) = Ok c -> bf_from_reader pr c = Ok f ->
    (if ka_stdin a || is_nil (ka_inputs a) then check_lines wy f a Panic (lines stdin) else ([], Ok tt)) = (out1, Ok tt) ->
    printing s false [out1] so_new o1 true -> ka_inputs a = [] \/ jobs <> 0 ->
    let ws := if is_nil (ka_inputs a) then [] else map (check_worker wy w f a) (batches (ka_inputs a) jobs) in
    printing s (negb (is_ok (join_units (map snd ws)))) (map fst ws) o1 o ok ->
    so_exit s o o' -> check_prints pr wy w stdin jobs a s o' ok.
