(** Programs using a filter: a list of calls, each answering something. *)
From Verif Require Import M_Cli.
Open Scope N_scope.

Inductive call :=
| Insert (d : list byte)
| Contains (d : list byte)
| Clear
| Union (o : bloom)
| Common (o : bloom)
| Size
| Full
| Save
| Reload.
Inductive reply := RUnit | RBool (b : bool) | RNum (n : N) | RBytes (l : list byte).
Definition reply_of {A} (g : A -> reply) (x : outcome A) : outcome reply := match x with Ok a => Ok (g a) | Err e => Err e | Panic => Panic end.
(** One call: the filter afterwards and the answer. *)
Definition step (pr : profile) (L : libm) (wy : hasher) (f : bloom) (c : call) : bloom * outcome reply :=
  match c with
  | Insert d => let '(g, r) := bf_insert_bytes pr wy f d in (g, reply_of RBool r)
  | Contains d => (f, reply_of RBool (bf_contains_bytes wy f d))
  | Clear => (bf_clear f, Ok RUnit)
  | Union o => let '(g, r) := bf_union_merge pr L f o in (g, reply_of (fun _ => RUnit) r)
  | Common o => (f, reply_of RNum (bf_count_common_entries pr L f o))
  | Size => (f, reply_of RNum (bf_size_in_bytes pr f))
  | Full => (f, Ok (RBool (bf_is_full f)))
  | Save => (f, Ok (RBytes (bf_write f)))
  | Reload => match bf_from_reader pr (bf_write f) with Ok g => (g, Ok RUnit) | Err e => (f, Err e) | Panic => (f, Panic) end
  end.
(** The calls one after the other, errors being answers and a panic ending the program. *)
Fixpoint run (pr : profile) (L : libm) (wy : hasher) (f : bloom) (cs : list call) : bloom * list (outcome reply) :=
  match cs with
  | [] => (f, [])
  | c :: r => match step pr L wy f c with
              | (g, Panic) => (g, [Panic])
              | (g, x) => let '(h, xs) := run pr L wy g r in (h, x :: xs)
              end
  end.
