(** Sessions: commands of the tool, a Python program and other programs working on the same files one after the other. *)
From Verif Require Export M_Python.
Open Scope N_scope.

(** [SWrite]: another program creates, replaces or removes a file. A save cut short by a full device is such an event as well; the
    saves of [SCreate] and [SInsert] find room (C48, C49 are about those that do not). *)
Inductive event :=
| SCreate (par : parallelism) (room : N) (jobs : usize) (a : create_args) (r : outcome unit)
| SInsert (par : parallelism) (stdin : list byte) (room : N) (jobs : usize) (a : insert_args) (r : outcome unit)
| SPython (c : py_call) (r : py_result)
| SWrite (p : path) (c : option (list byte)).
Definition in_files (s : py_world) (w : fs) : py_world := {| pw_objs := pw_objs s; pw_files := w |}.
Definition fs_put (w : fs) (p : path) (c : option (list byte)) : fs := fun q => if list_eqb p q then c else w q.
Inductive happens (pr : profile) (L : libm) (wy : hasher) (s : py_world) : event -> py_world -> Prop :=
| ev_create par room jobs a w' r : (forall g, create_filter pr L wy par (pw_files s) jobs a = Ok g -> len (bf_write g) <= room) ->
    cmd_create pr L wy par (pw_files s) room jobs a = (w', r) -> happens pr L wy s (SCreate par room jobs a r) (in_files s w')
| ev_insert par stdin room jobs a w' r : (forall g, insert_filter pr L wy par (pw_files s) stdin jobs a = Ok g -> len (bf_write g) <= room) ->
    cmd_insert pr L wy par (pw_files s) stdin room jobs a = (w', r) -> happens pr L wy s (SInsert par stdin room jobs a r) (in_files s w')
| ev_python c s' r : py_do pr L wy s c = (s', r) -> happens pr L wy s (SPython c r) s'
| ev_write p c : happens pr L wy s (SWrite p c) (in_files s (fs_put (pw_files s) p c)).
