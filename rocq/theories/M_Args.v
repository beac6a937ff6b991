(** poppy/src/bin/poppy.rs:27-151 and 284-565: the command line. The declarations of arguments are the tool's; how a command line
    is taken apart and how values are read is clap 4 and the standard library, modelled here for what these declarations use. A
    usage error and a request for help both end the program before [main] does anything ([None]). *)
From Coq Require Import String Ascii.
From Verif Require Export M_Bench M_Text.
Open Scope N_scope.

Notation token := (list byte) (only parsing).

(** ** Reading values *)
Definition is_digit (c : byte) : bool := in_rng 48 57 c.
(** core::num: one digit or more, most significant first. *)
Fixpoint digits_from (acc : N) (l : list byte) : option N :=
  match l with
  | [] => Some acc
  | c :: r => if is_digit c then digits_from (10 * acc + (c - 48)) r else None
  end.
Definition read_digits (l : list byte) : option N := match l with [] => None | _ => digits_from 0 l end.
(** usize::from_str: an optional plus, digits, no overflow. *)
Definition unplus (l : list byte) : list byte := match l with 43 :: r => r | _ => l end.
Definition read_usize (l : list byte) : option usize :=
  match read_digits (unplus l) with
  | Some n => if n <? two64 then Some n else None
  | None => None
  end.
(** clap's parser for u8 and u32: i64::from_str, and then the range. [-0] is therefore accepted. *)
Definition read_ranged (limit : N) (l : list byte) : option N :=
  let '(neg, d) := match l with 45 :: r => (true, r) | _ => (false, unplus l) end in
  match read_digits d with
  | Some n => if (n <? limit) && (negb neg || (n =? 0)) then Some n else None
  | None => None
  end.
(** f64::from_str (core::num::dec2flt): the nearest double, ties to even. The digits are one integer, [e10] the power of ten it is
    multiplied by. The standard library stops reading an exponent at 65536; with at most 2^17 bytes per argument, as on Linux, the
    number is then beyond every double or below every one, so the exact exponent is used here. *)
Definition of_decimal (s : bool) (m : N) (e10 : Z) : spec_float :=
  match m with
  | 0 => S754_zero s
  | Npos p => if (0 <=? e10)%Z
              then SpecFloat.binary_round 53 1024 s (p * Z.to_pos (10 ^ e10)) 0
              else let '(q, e, l) := SFdiv_core_binary 53 1024 (Zpos p) 0 (10 ^ (- e10)) 0 in
                   SpecFloat.binary_round_aux 53 1024 s q e l
  end.
(** f64::to_bits. *)
Definition sign_bit (s : bool) : N := if s then 9223372036854775808 else 0.
Definition sf_to_bits (x : spec_float) : f64_bits :=
  match x with
  | S754_zero s => sign_bit s
  | S754_infinity s => sign_bit s + 9218868437227405312
  | S754_nan => 9221120237041090560
  | S754_finite s m e =>
    sign_bit s + (if Npos m <? 4503599627370496 then Npos m else Z.to_N (e + 1075) * 4503599627370496 + (Npos m - 4503599627370496))
  end.
(** The longest run of digits at the front, and what follows. *)
Fixpoint span_digits (l : list byte) : list byte * list byte :=
  match l with
  | [] => ([], [])
  | c :: r => if is_digit c then let '(a, b) := span_digits r in (c :: a, b) else ([], l)
  end.
Definition read_exponent (l : list byte) : option Z :=
  match l with
  | [] => Some 0%Z
  | c :: r => if (c =? 101) || (c =? 69)
              then match r with
                   | 45 :: d => option_map (fun n => (- Z.of_N n)%Z) (read_digits d)
                   | _ => option_map Z.of_N (read_digits (unplus r))
                   end
              else None
  end.
Definition read_number (s : bool) (l : list byte) : option spec_float :=
  let '(a, r) := span_digits l in
  let '(b, r) := match r with 46 :: r' => span_digits r' | _ => ([], r) end in
  match read_digits (a ++ b), read_exponent r with
  | Some m, Some e => Some (of_decimal s m (e - Z.of_N (len b)))
  | _, _ => None
  end.
Definition lower (c : byte) : byte := if in_rng 65 90 c then c + 32 else c.
Definition read_f64 (l : list byte) : option f64_bits :=
  let '(s, d) := match l with 45 :: r => (true, r) | _ => (false, unplus l) end in
  let name := map lower d in
  if list_eqb name (bytes_of "inf") || list_eqb name (bytes_of "infinity") then Some (sf_to_bits (S754_infinity s))
  else if list_eqb name (bytes_of "nan") then Some (sign_bit s + sf_to_bits S754_nan)
  else option_map sf_to_bits (read_number s d).

(** ** Taking a command line apart (clap_builder's parser) *)
(** An option: its letter, its name, whether a value follows. *)
Record decl := { d_short : option byte; d_long : list byte; d_takes : bool }.
(** What was found: the option number [i] of the list of declarations, with its value (empty for a switch), or an operand. *)
Inductive item := Given (i : nat) (v : token) | Operand (v : token).
Definition short_is (c : byte) (d : decl) : bool := match d_short d with Some x => x =? c | None => false end.
Definition long_is (n : list byte) (d : decl) : bool := list_eqb n (d_long d).
Fixpoint find_decl (f : decl -> bool) (i : nat) (ds : list decl) : option (nat * bool) :=
  match ds with
  | [] => None
  | d :: r => if f d then Some (i, d_takes d) else find_decl f (S i) r
  end.
(** A token that is no operand: a dash and something more. *)
Definition dashed (t : token) : bool := match t with 45 :: _ :: _ => true | _ => false end.
(** name=value at the first equals sign. *)
Fixpoint split_equals (l : list byte) : list byte * option token :=
  match l with
  | [] => ([], None)
  | c :: r => if c =? 61 then ([], Some r) else let '(n, v) := split_equals r in (c :: n, v)
  end.
(** Letters behind one dash; the first that takes a value takes the rest of the token, without a leading equals sign, or, when the
    token ends there, the next token. *)
Fixpoint cluster (ds : list decl) (l : list byte) : option (list item * option nat) :=
  match l with
  | [] => Some ([], None)
  | c :: r =>
    match find_decl (short_is c) 0 ds with
    | None => None
    | Some (i, false) => option_map (fun '(its, p) => (Given i [] :: its, p)) (cluster ds r)
    | Some (i, true) => match r with
                        | [] => Some ([], Some i)
                        | 61 :: v => Some ([Given i v], None)
                        | _ => Some ([Given i r], None)
                        end
    end
  end.
Definition prepend (its : list item) (o : option (list item * list token)) : option (list item * list token) :=
  option_map (fun '(l, rest) => (its ++ l, rest)) o.
(** [sub]: the command has subcommands, so the first operand ends its own arguments; the tokens from there on are returned. *)
Fixpoint scan (ds : list decl) (sub : bool) (args : list token) : option (list item * list token) :=
  match args with
  | [] => Some ([], [])
  | t :: rest =>
    if dashed t then
      match t with
      | 45 :: 45 :: body =>
        match body with
        | [] => if sub then None else Some (map Operand rest, [])
        | _ =>
          let '(name, value) := split_equals body in
          match find_decl (long_is name) 0 ds, value with
          | None, _ => None
          | Some (i, true), Some v => prepend [Given i v] (scan ds sub rest)
          | Some (i, true), None => match rest with
                                    | v :: rest' => if dashed v then None else prepend [Given i v] (scan ds sub rest')
                                    | [] => None
                                    end
          | Some (i, false), Some _ => None
          | Some (i, false), None => prepend [Given i []] (scan ds sub rest)
          end
        end
      | _ :: body =>
        match cluster ds body with
        | None => None
        | Some (its, None) => prepend its (scan ds sub rest)
        | Some (its, Some i) => match rest with
                                | v :: rest' => if dashed v then None else prepend (its ++ [Given i v]) (scan ds sub rest')
                                | [] => None
                                end
        end
      | [] => None
      end
    else if sub then Some ([], args) else prepend [Operand t] (scan ds sub rest)
  end.
(** The values given to option [i]; clap accepts at most one. *)
Definition values (i : nat) (l : list item) : list token :=
  flat_map (fun x => match x with Given j v => if Nat.eqb i j then [v] else [] | Operand _ => [] end) l.
Definition operands (l : list item) : list token := flat_map (fun x => match x with Operand v => [v] | Given _ _ => [] end) l.
Definition switch (i : nat) (l : list item) : option bool :=
  match values i l with [] => Some false | [_] => Some true | _ => None end.
Definition optional {A} (i : nat) (read : token -> option A) (l : list item) : option (option A) :=
  match values i l with [] => Some None | [v] => option_map Some (read v) | _ => None end.
Definition with_default {A} (i : nat) (read : token -> option A) (default : string) (l : list item) : option A :=
  match values i l with [] => read (bytes_of default) | [v] => read v | _ => None end.
(** Values of type String must be UTF-8; values of type PathBuf must not be empty. *)
Definition read_string (l : token) : option token := if utf8_valid l then Some l else None.
Definition read_path (l : token) : option path := match l with [] => None | _ => Some l end.
Fixpoint read_strings (l : list token) : option (list token) :=
  match l with
  | [] => Some []
  | t :: r => match read_string t, read_strings r with Some t, Some r => Some (t :: r) | _, _ => None end
  end.
Notation "'let*' x := a 'in' b" := (match a with Some x => b | None => None end) (at level 200, x name, a at level 100, b at level 200).

(** ** The declarations *)
Definition flag (s : option string) (n : string) : decl := {| d_short := option_map (fun s => hd 0 (bytes_of s)) s; d_long := bytes_of n; d_takes := false |}.
Definition valued (s : option string) (n : string) : decl := {| d_short := option_map (fun s => hd 0 (bytes_of s)) s; d_long := bytes_of n; d_takes := true |}.
(** bin/poppy.rs:27-43. *)
Definition main_decls : list decl := [flag (Some "v") "verbose"; valued (Some "j") "jobs"]%string.
(** bin/poppy.rs:61-85 [Create]. *)
Definition create_decls : list decl := [valued None "version"; valued (Some "c") "capacity"; valued (Some "p") "probability"; valued (Some "O") "opt-lvl"]%string.
Definition read_create (args : list token) : option create_args :=
  let* s := scan create_decls false args in
  let l := fst s in
  let* v := with_default 0 (read_ranged 256) "2" l in
  let* c := with_default 1 read_usize "10000" l in
  let* p := with_default 2 read_f64 "0.01" l in
  let* o := with_default 3 (read_ranged 256) "0" l in
  match operands l with
  | [] => None
  | f :: ds => let* f := read_path f in
               let* ds := read_strings ds in
               Some {| ca_version := v; ca_capacity := c; ca_probability := p; ca_optimize := o; ca_file := f; ca_dataset := ds |}
  end.
(** bin/poppy.rs:88-97 [Insert]. *)
Definition insert_decls : list decl := [flag None "stdin"]%string.
Definition read_insert (args : list token) : option insert_args :=
  let* s := scan insert_decls false args in
  let l := fst s in
  let* i := switch 0 l in
  match operands l with
  | [] => None
  | f :: fs => let* f := read_string f in
               let* fs := read_strings fs in
               Some {| ia_stdin := i; ia_file := f; ia_inputs := fs |}
  end.
(** bin/poppy.rs:100-115 [Check]. *)
Definition check_decls : list decl := [flag None "stdin"; flag None "silent"; flag None "verify"]%string.
Definition read_check (args : list token) : option check_args :=
  let* s := scan check_decls false args in
  let l := fst s in
  let* i := switch 0 l in
  let* q := switch 1 l in
  let* v := switch 2 l in
  match operands l with
  | [] => None
  | f :: fs => let* f := read_string f in
               let* fs := read_strings fs in
               Some {| ka_stdin := i; ka_silent := q; ka_verify := v; ka_file := f; ka_inputs := fs |}
  end.
(** bin/poppy.rs:118-145 [Benchmark]. *)
Definition bench_decls : list decl :=
  [valued (Some "s") "size-mb"; valued None "test-size"; valued (Some "r") "runs"; valued (Some "f") "fp-tol"; valued (Some "v") "version"; valued None "fpp"; valued (Some "O") "opt"]%string.
Definition read_bench (args : list token) : option bench_args :=
  let* s := scan bench_decls false args in
  let l := fst s in
  let* m := with_default 0 read_usize "100" l in
  let* t := optional 1 read_usize l in
  let* r := with_default 2 (read_ranged 4294967296) "50" l in
  let* f := with_default 3 read_f64 "0.2" l in
  let* v := with_default 4 (read_ranged 256) "2" l in
  let* p := with_default 5 read_f64 "0.001" l in
  let* o := with_default 6 (read_ranged 256) "0" l in
  let* q := match operands l with [] => Some None | [q] => option_map Some (read_string q) | _ => None end in
  Some {| ba_size_mb := m; ba_test_size := t; ba_runs := r; ba_fp_tol := f; ba_version := v; ba_fpp := p; ba_opt := o; ba_file := q |}.
(** bin/poppy.rs:148-151 [Show]. *)
Definition read_show (args : list token) : option path :=
  let* s := scan [] false args in
  match operands (fst s) with [f] => read_string f | _ => None end.
(** bin/poppy.rs:45-58 [Command]: the names are those of the variants in lower case. *)
Inductive command := Create (a : create_args) | Insert (a : insert_args) | Check (a : check_args) | Bench (a : bench_args) | Show (p : path).
Definition read_command (args : list token) : option command :=
  match args with
  | [] => None
  | name :: rest =>
    if list_eqb name (bytes_of "create") then option_map Create (read_create rest)
    else if list_eqb name (bytes_of "insert") then option_map Insert (read_insert rest)
    else if list_eqb name (bytes_of "check") then option_map Check (read_check rest)
    else if list_eqb name (bytes_of "bench") then option_map Bench (read_bench rest)
    else if list_eqb name (bytes_of "show") then option_map Show (read_show rest)
    else None
  end.
Record arguments := { ar_verbose : bool; ar_jobs : usize; ar_command : command }.
Definition read_args (argv : list token) : option arguments :=
  let* s := scan main_decls true argv in
  let* v := switch 0 (fst s) in
  let* j := with_default 1 read_usize "2" (fst s) in
  let* c := read_command (snd s) in
  Some {| ar_verbose := v; ar_jobs := j; ar_command := c |}.

(** ** bin/poppy.rs:284-565 [main] *)
(** What the outside decides: the build, the C library, the hash function of std, the number of processors, the random generator
    and shuffling of bench, standard input, the room on the disk, how floats are printed. *)
Record outside := { os_build : profile; os_libm : libm; os_hasher : hasher; os_par : parallelism; os_wyhash : list byte -> u64; os_draws : draws;
  os_shuffle : list (list byte) -> list (list byte); os_stdin : list byte; os_room : N; os_float : f64_bits -> list byte }.
Inductive ending :=
| Usage                                             (* nothing was run *)
| Wrote (r : outcome unit)                          (* create and insert *)
| Checked (out : list printed) (r : outcome unit)
| Benched (r : outcome bench_result)
| Showed (r : outcome (list byte)).
Inductive main (o : outside) (w : fs) (argv : list token) : fs -> ending -> Prop :=
| main_usage : read_args argv = None -> main o w argv w Usage
| main_create : forall a c w' r, read_args argv = Some a -> ar_command a = Create c ->
    cmd_create (os_build o) (os_libm o) (os_hasher o) (os_par o) w (os_room o) (ar_jobs a) c = (w', r) -> main o w argv w' (Wrote r)
| main_insert : forall a c w' r, read_args argv = Some a -> ar_command a = Insert c ->
    cmd_insert (os_build o) (os_libm o) (os_hasher o) (os_par o) w (os_stdin o) (os_room o) (ar_jobs a) c = (w', r) -> main o w argv w' (Wrote r)
| main_check : forall a c out r, read_args argv = Some a -> ar_command a = Check c ->
    cmd_check (os_build o) (os_hasher o) w (os_stdin o) (ar_jobs a) c out r -> main o w argv w (Checked out r)
| main_bench : forall a c, read_args argv = Some a -> ar_command a = Bench c ->
    main o w argv w (Benched (cmd_bench (os_build o) (os_libm o) (os_hasher o) (os_wyhash o) (os_draws o) (os_shuffle o) w (os_stdin o) c))
| main_show : forall a p, read_args argv = Some a -> ar_command a = Show p ->
    main o w argv w (Showed (show_output (os_float o) (os_build o) w p p)).

(** Command lines. *)
Definition words (l : list string) : list token := map bytes_of l.
