(** Python programs: sequences of calls of python/src/lib.rs on named objects.

    From pyo3, from memory: a method that takes [&mut self] borrows its object exclusively while it runs, and a call that would borrow an
    object again meanwhile raises RuntimeError before anything is done; a panic raises PanicException; the interpreter lock is held
    during each call, so that calls of several Python threads come one after the other. *)
From Verif Require Export M_Cli.
Open Scope N_scope.

(** Objects are named by the order of their creation. *)
Inductive py_call :=
| PNew (capacity : usize) (fpp : f64_bits)
| PWithVersion (version : byte) (capacity : usize) (fpp : f64_bits)
| PWithParams (version : byte) (capacity : usize) (fpp : f64_bits) (opt : byte)
| PLoads (b : list byte)
| PLoad (p : path)
| PInsert (h : nat) (d : list byte)
| PContains (h : nat) (d : list byte)
| PIsFull (h : nat)
| PUnion (h o : nat)
| PCommon (h o : nat)
| PDumps (h : nat)
| PSave (h : nat) (p : path)
| PVersion (h : nat) | PCapacity (h : nat) | PFpp (h : nat) | PCount (h : nat) | PData (h : nat).
Inductive py_exc := ValueError (e : error) | OSError | RuntimeError | PanicException | NameError.
Inductive py_result := PyObj (h : nat) | PyNone | PyBool (b : bool) | PyInt (n : N) | PyFloat (x : f64_bits) | PyBytes (b : list byte) | PyRaise (e : py_exc).
Record py_world := { pw_objs : list bloom; pw_files : fs }.

Fixpoint set_at {A} (l : list A) (n : nat) (x : A) : list A :=
  match l, n with
  | [], _ => []
  | _ :: r, O => x :: r
  | y :: r, S n => y :: set_at r n x
  end.
(** lib.rs:14-25: errors of the library become ValueError. *)
Definition raised {A} (r : outcome A) (ok : A -> py_result) : py_result :=
  match r with Ok x => ok x | Err e => PyRaise (ValueError e) | Panic => PyRaise PanicException end.
(** A new object, or the exception. *)
Definition py_make (s : py_world) (r : outcome bloom) : py_world * py_result :=
  match r with
  | Ok f => ({| pw_objs := pw_objs s ++ [f]; pw_files := pw_files s |}, PyObj (length (pw_objs s)))
  | Err e => (s, PyRaise (ValueError e))
  | Panic => (s, PyRaise PanicException)
  end.
(** A call on an object. *)
Definition on (s : py_world) (h : nat) (k : bloom -> py_world * py_result) : py_world * py_result :=
  match nth_error (pw_objs s) h with Some f => k f | None => (s, PyRaise NameError) end.
Definition with_obj (s : py_world) (h : nat) (f : bloom) : py_world := {| pw_objs := set_at (pw_objs s) h f; pw_files := pw_files s |}.

Definition py_do (pr : profile) (L : libm) (wy : hasher) (s : py_world) (c : py_call) : py_world * py_result :=
  match c with
  (* lib.rs:46-74 *)
  | PNew cap fpp => py_make s (py_new pr L cap fpp)
  | PWithVersion v cap fpp => py_make s (py_with_version pr L v cap fpp)
  | PWithParams v cap fpp opt => py_make s (py_with_params pr L v cap fpp opt)
  (* lib.rs:27-34 *)
  | PLoads b => py_make s (py_loads pr b)
  (* lib.rs:36-42: [?] on File::open raises OSError. *)
  | PLoad p => match fs_open (pw_files s) p with Ok c => py_make s (bf_from_reader pr c) | _ => (s, PyRaise OSError) end
  (* lib.rs:76-84 *)
  | PInsert h d => on s h (fun f => let '(g, r) := py_insert_bytes pr wy f d in (with_obj s h g, raised r PyBool))
  (* lib.rs:86-94 *)
  | PContains h d => on s h (fun f => (s, raised (py_contains_bytes wy f d) PyBool))
  (* lib.rs:96-99 *)
  | PIsFull h => on s h (fun f => (s, PyBool (bf_is_full f)))
  (* lib.rs:101-105: [&mut self] and [&Self] cannot be the same object. *)
  | PUnion h o => on s h (fun f => on s o (fun g =>
      if Nat.eqb h o then (s, PyRaise RuntimeError)
      else let '(f', r) := bf_union_merge pr L f g in (with_obj s h f', raised r (fun _ => PyNone))))
  (* lib.rs:107-110: two shared borrows. *)
  | PCommon h o => on s h (fun f => on s o (fun g => (s, raised (bf_count_common_entries pr L f g) PyInt)))
  (* lib.rs:112-119 *)
  | PDumps h => on s h (fun f => (s, PyBytes (py_dumps f)))
  (* lib.rs:121-125; the device has room (C48 and C49 are about those that have not). *)
  | PSave h p => on s h (fun f => let '(w, r) := py_save (pw_files s) p f (len (bf_write f)) in ({| pw_objs := pw_objs s; pw_files := w |}, raised r (fun _ => PyNone)))
  (* lib.rs:129-152 *)
  | PVersion h => on s h (fun f => (s, PyInt (bf_version f)))
  | PCapacity h => on s h (fun f => (s, PyInt (bf_capacity f)))
  | PFpp h => on s h (fun f => (s, PyFloat (bf_fpp f)))
  | PCount h => on s h (fun f => (s, PyInt (bf_count_estimate f)))
  | PData h => on s h (fun f => (s, PyBytes (bf_data f)))
  end.
(** A program: the calls it makes, with their results. *)
Inductive py_run (pr : profile) (L : libm) (wy : hasher) : py_world -> list (py_call * py_result) -> py_world -> Prop :=
| run_nil : forall s, py_run pr L wy s [] s
| run_call : forall s c s1 r l s2, py_do pr L wy s c = (s1, r) -> py_run pr L wy s1 l s2 -> py_run pr L wy s ((c, r) :: l) s2.
