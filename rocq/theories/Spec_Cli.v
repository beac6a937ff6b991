(** What the command line tool is asked to do: the entries of a list of text files. *)
From Verif Require Import M_Cli Spec_Bits Spec_Hash Spec_V2 Spec_V1 Spec_Bloom Spec_Lines.
Open Scope N_scope.

(** [file_lines w files ls]: every file is there and is valid UTF-8, and their lines, file after file, are [ls]. *)
Inductive file_lines (w : fs) : list path -> list (list byte) -> Prop :=
| fl_nil : file_lines w [] []
| fl_cons p c es r ls : w p = Some c -> utf8 c -> text c es -> file_lines w r ls -> file_lines w (p :: r) (es ++ ls).
(** Files hold bytes. *)
Definition fs_bytes (w : fs) : Prop := forall p c, w p = Some c -> bytes_ok c.
(** [bad_file w p]: the file cannot be read as text. *)
Definition bad_file (w : fs) (p : path) : Prop := w p = None \/ exists c, w p = Some c /\ ~ utf8 c.

(** What [check] is expected to print for the lines [ls]: the lines that are contained, or with --verify those that are not;
    nothing with --silent alone. *)
Definition contained (wy : hasher) (f : bloom) (d : list byte) : bool := match bf_contains_bytes wy f d with Ok true => true | _ => false end.
Definition answer (wy : hasher) (f : bloom) (a : check_args) (ls : list (list byte)) : list printed :=
  if ka_verify a then map Nok (filter (fun d => negb (contained wy f d)) ls)
  else if ka_silent a then [] else map Plain (filter (contained wy f) ls).

(** [x] is rightly printed for one of the lines [ls]. *)
Definition right (wy : hasher) (f : bloom) (a : check_args) (ls : list (list byte)) (x : printed) : Prop :=
  match x with
  | Plain l => In l ls /\ bf_contains_bytes wy f l = Ok true /\ ka_verify a = false /\ ka_silent a = false
  | Nok l => In l ls /\ bf_contains_bytes wy f l = Ok false /\ ka_verify a = true
  end.

(** [a] can be obtained from [l] by leaving out elements. *)
Inductive subseq {A} : list A -> list A -> Prop :=
| sub_nil l : subseq [] l
| sub_take x a l : subseq a l -> subseq (x :: a) (x :: l)
| sub_skip x a l : subseq a l -> subseq a (x :: l).

(** The situation of a check that can work: a usable filter, readable text inputs [ls], and text lines [sls] on stdin when it is
    read (it is with --stdin or without input files). *)
Record checkable (pr : profile) (w : fs) (stdin : list byte) (a : check_args) (f : bloom) (sls ls : list (list byte)) : Prop := {
  cb_bytes : fs_bytes w;
  cb_filter : exists c, w (ka_file a) = Some c /\ file_size_ok c /\ bf_from_reader pr c = Ok f;
  cb_usable : bf_usable f;
  cb_inputs : file_lines w (ka_inputs a) ls;
  cb_stdin : if ka_stdin a || is_nil (ka_inputs a) then bytes_ok stdin /\ utf8 stdin /\ text stdin sls else sls = []
}.
