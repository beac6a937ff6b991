(** Texts of the errors: poppy/src/bloom.rs:79-115 (thiserror), and the text of a Python ValueError, python/src/lib.rs:14-25. *)
From Coq Require Import String.
From Verif Require Export M_Python M_Text.
Open Scope N_scope.

(** The reason inside [Error::Merge]: bloom.rs:331 for a union, bloom.rs:347 for common entries. The reasons of v1.rs:399, v1.rs:414,
    v2.rs:559, v2.rs:617 are not reached through [BloomFilter], which checks the parameters first. *)
Definition why_union : list byte := bytes_of "cannot merge filters with different parameters".
Definition why_common : list byte := bytes_of "cannot compare filters with different parameters".
Definition why_of (c : py_call) : list byte := match c with PUnion _ _ => why_union | PCommon _ _ => why_common | _ => [] end.

(** bloom.rs:79-83 and 98-115. [df] is Display of an f64, [io] the text of the io::Error, [why] the string of [Merge]. The binary's own
    error [NotPoppy] is not an error of the library. *)
Definition err_text (df : f64_bits -> list byte) (io why : list byte) (e : error) : list byte :=
  match e with
  | WrongFpp x => bytes_of "fpp value must be in ]0;1] fpp=" ++ df x
  | IoError => io
  | InvalidVersion v => bytes_of "invalid version " ++ dec v
  | Merge => bytes_of "union error: " ++ why
  | OptLevelError v => bytes_of "invalid opt-level=" ++ dec v
  | TooManyEntries => bytes_of "too many entries, false positive rate cannot be met"
  | UninitIter => bytes_of "entry index iterator must be initialized"
  | NotPoppy => []
  end.
(** lib.rs:20-25: what [str] of the exception gives, when it is a ValueError. *)
Definition py_text (df : f64_bits -> list byte) (io : list byte) (c : py_call) (r : py_result) : option (list byte) :=
  match r with PyRaise (ValueError e) => Some (err_text df io (why_of c) e) | _ => None end.
