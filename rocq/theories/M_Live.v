(** Two processes that use the same filter file at the same time. bin/poppy.rs takes no lock: insert (320-335) reads the file,
    works in memory, then truncates and rewrites it; check (337-342) and the readers of the library only read it.
    The files with the lines to insert are not written meanwhile. *)
From Verif Require Export M_Cli.
Open Scope N_scope.

(** bin/poppy.rs:325-332: insert, from the filter that was read to the filter that will be saved. *)
Definition insert_after (pr : profile) (L : libm) (wy : hasher) (par : parallelism) (w : fs) (stdin : list byte) (jobs : usize) (a : insert_args) (f : bloom) : outcome bloom :=
  let? bf := if ia_stdin a || is_nil (ia_inputs a)
             then let '(bf', r) := insert_lines pr wy f (lines stdin) in let? _ := r in Ok bf'
             else Ok f in
  parallel_insert pr L wy par w bf (ia_inputs a) jobs.
(** A process that saves nothing. *)
Definition only_read (f : bloom) : outcome bloom := Err IoError.

Inductive proc :=
| Reading (seen : list byte)          (** from_reader has read these bytes so far *)
| Loaded (f : bloom)                  (** from_reader has returned *)
| Ready (g : bloom)                   (** about to call File::create *)
| Saving (g : bloom) (off : N)        (** [off] bytes have been written *)
| Done
| Failed.
(** Writing at an offset; a gap between the end of the file and the offset is filled with zeros. *)
Definition write_at (c : list byte) (off : N) (d : list byte) : list byte :=
  firstn (N.to_nat off) (c ++ repeat 0 (N.to_nat (off - len c))) ++ d ++ skipn (N.to_nat (off + len d)) c.
(** One step of a process with file content [c]: reads and writes transfer any number of bytes, and a process may fail or be killed at
    any moment. The reader works on the bytes it was given, in order; it stops at the first read that returns nothing. *)
Inductive step (pr : profile) (go : bloom -> outcome bloom) : list byte -> proc -> list byte -> proc -> Prop :=
| st_read : forall c seen d r, d <> [] -> skipn (length seen) c = d ++ r -> step pr go c (Reading seen) c (Reading (seen ++ d))
| st_loaded : forall c seen f, len c <= len seen -> bf_from_reader pr seen = Ok f -> step pr go c (Reading seen) c (Loaded f)
| st_ready : forall c f g, go f = Ok g -> step pr go c (Loaded f) c (Ready g)
| st_create : forall c g, step pr go c (Ready g) [] (Saving g 0)
| st_write : forall c g off d r, d <> [] -> skipn (N.to_nat off) (bf_write g) = d ++ r -> step pr go c (Saving g off) (write_at c off d) (Saving g (off + len d))
| st_done : forall c g off, len (bf_write g) <= off -> step pr go c (Saving g off) c Done
| st_fail : forall c p, p <> Done -> step pr go c p c Failed.
(** Two processes, any interleaving. *)
Inductive run2 (pr : profile) (go1 go2 : bloom -> outcome bloom) (c0 : list byte) : list byte -> proc -> proc -> Prop :=
| run_start : run2 pr go1 go2 c0 c0 (Reading []) (Reading [])
| run_left : forall c p q c' p', run2 pr go1 go2 c0 c p q -> step pr go1 c p c' p' -> run2 pr go1 go2 c0 c' p' q
| run_right : forall c p q c' q', run2 pr go1 go2 c0 c p q -> step pr go2 c q c' q' -> run2 pr go1 go2 c0 c' p q'.
