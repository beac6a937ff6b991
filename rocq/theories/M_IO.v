(** Readers and writers, and the header flags of poppy/src/bloom.rs. *)
From Verif Require Export M_Util.
Open Scope N_scope.

(** ** Readers: a [Read + Seek] over an in-memory cursor or regular file = full content + position.
    Nested io::BufReader layers (v2.rs:172,190; v1.rs:152,168; bloom.rs:239,260) are left out here: they only change
    how many bytes are fetched at a time, and seek_relative accounts for what is buffered. M_BufRead.v models the layers and a
    medium that can fail; C83 and C84 say that leaving them out is right. *)
Record reader := { r_all : list byte; r_pos : N }.
Definition reader_of (content : list byte) : reader := {| r_all := content; r_pos := 0 |}.
Definition r_rest (r : reader) : list byte :=
  if len (r_all r) <=? r_pos r then [] else skipn (N.to_nat (r_pos r)) (r_all r).

(** Read::read_exact: all [n] bytes or UnexpectedEof. *)
Definition read_exact (n : usize) (r : reader) : outcome (list byte * reader) :=
  let t := r_rest r in
  if n <=? len t then Ok (firstn (N.to_nat n) t, {| r_all := r_all r; r_pos := r_pos r + n |})
  else Err IoError.

(** Read::read_to_end. *)
Definition read_to_end (r : reader) : list byte := r_rest r.

(** BufReader::seek_relative: a negative or overflowing target is an error, a target past the end is not. *)
Definition seek_relative (off : Z) (r : reader) : outcome reader :=
  let t := (Z.of_N (r_pos r) + off)%Z in
  if (t <? 0)%Z || (18446744073709551616 <=? t)%Z then Err IoError
  else Ok {| r_all := r_all r; r_pos := Z.to_N t |}.

(** poppy/src/utils.rs:9-13 [read_le_u64]. *)
Definition read_le_u64 (r : reader) : outcome (u64 * reader) :=
  let? (b, r) := read_exact 8 r in Ok (of_le b, r).
(** poppy/src/utils.rs:15-19 [read_le_f64]: the f64 is its bit pattern. *)
Definition read_le_f64 (r : reader) : outcome (f64_bits * reader) := read_le_u64 r.

(** [n] successive read_exact of [size] bytes (v2.rs:227-229; v1.rs:186-188). *)
Fixpoint read_many (n : nat) (size : usize) (r : reader) : outcome (list (list byte) * reader) :=
  match n with
  | O => Ok ([], r)
  | S n' => let? (b, r) := read_exact size r in
            let? (bs, r) := read_many n' size r in Ok (b :: bs, r)
  end.

(** ** OptLevel and Flags: poppy/src/bloom.rs *)
(** bloom.rs:53-60 (repr(u8), declaration order). *)
Inductive optlevel := ONone | OSpace | OSpeed | OBest.
Definition opt_to_u8 (o : optlevel) : byte :=
  match o with ONone => 0 | OSpace => 1 | OSpeed => 2 | OBest => 3 end.
(** bloom.rs:85-96 [TryFrom<u8> for OptLevel]. *)
Definition opt_of_u8 (v : byte) : outcome optlevel :=
  if v =? opt_to_u8 ONone then Ok ONone
  else if v =? opt_to_u8 OSpace then Ok OSpace
  else if v =? opt_to_u8 OSpeed then Ok OSpeed
  else if v =? opt_to_u8 OBest then Ok OBest
  else Err (OptLevelError v).

(** bloom.rs:12-18. *)
Record flags := { fl_version : byte; fl_opt : optlevel; fl_reserved : list byte }.
(** bloom.rs:27-33 [new], 35-38 [opt]. *)
Definition flags_new (v : byte) : flags := {| fl_version := v; fl_opt := ONone; fl_reserved := [0;0;0;0;0;0] |}.
Definition flags_with_opt (f : flags) (o : optlevel) : flags :=
  {| fl_version := fl_version f; fl_opt := o; fl_reserved := fl_reserved f |}.
(** bloom.rs:40-42 [to_bytes]: the reserved bytes are written as zeros. *)
Definition flags_to_bytes (f : flags) : list byte := [fl_version f; opt_to_u8 (fl_opt f); 0; 0; 0; 0; 0; 0].
(** bloom.rs:44-50 [from_bytes] on an [u8; 8]. *)
Definition flags_from_bytes (b : list byte) : outcome flags :=
  match b with
  | v :: o :: rest =>
    let? o := opt_of_u8 o in Ok {| fl_version := v; fl_opt := o; fl_reserved := rest |}
  | _ => Panic
  end.
(** bloom.rs:20-24 [read_flags]. *)
Definition read_flags (r : reader) : outcome (flags * reader) :=
  let? (b, r) := read_exact 8 r in
  let? f := flags_from_bytes b in Ok (f, r).

(** Derived PartialEq of OptLevel and Flags (bloom.rs:13, 53). *)
Definition opt_eqb (a b : optlevel) : bool := opt_to_u8 a =? opt_to_u8 b.
Fixpoint list_eqb (a b : list N) : bool :=
  match a, b with
  | [], [] => true
  | x :: a', y :: b' => (x =? y) && list_eqb a' b'
  | _, _ => false
  end.
Definition flags_eqb (a b : flags) : bool :=
  (fl_version a =? fl_version b) && opt_eqb (fl_opt a) (fl_opt b) && list_eqb (fl_reserved a) (fl_reserved b).

(** ** Writers: io::BufWriter (capacity 8 KiB) over a writer that accepts [sk_room] more bytes and then fails
    (short writes included). v2.rs:253-279 and v1.rs:215-233 wrap the caller's writer in a BufWriter that is
    dropped, never flushed explicitly, at the end of [write]. *)
Record sink := { sk_got : list byte; sk_room : N }.
(** Write::write_all of the underlying writer: writes what fits; false = error. *)
Definition sink_write_all (s : sink) (b : list byte) : sink * bool :=
  if len b <=? sk_room s
  then ({| sk_got := sk_got s ++ b; sk_room := sk_room s - len b |}, true)
  else ({| sk_got := sk_got s ++ firstn (N.to_nat (sk_room s)) b; sk_room := 0 |}, false).

Record bufw := { bw_sink : sink; bw_buf : list byte }.
Definition BUF_CAP : N := 8192.
(** BufWriter::flush_buf: on error the bytes already accepted leave the buffer. *)
Definition bw_flush (w : bufw) : bufw * bool :=
  let '(s, ok) := sink_write_all (bw_sink w) (bw_buf w) in
  if ok then ({| bw_sink := s; bw_buf := [] |}, true)
  else ({| bw_sink := s; bw_buf := skipn (N.to_nat (sk_room (bw_sink w))) (bw_buf w) |}, false).
(** BufWriter::write_all (fast path, then write_all_cold). *)
Definition bw_write_all (w : bufw) (b : list byte) : bufw * bool :=
  let spare := BUF_CAP - len (bw_buf w) in
  if len b <? spare then ({| bw_sink := bw_sink w; bw_buf := bw_buf w ++ b |}, true)
  else
    let '(w, ok) := if spare <? len b then bw_flush w else (w, true) in
    if negb ok then (w, false)
    else if BUF_CAP <=? len b then
      let '(s, ok) := sink_write_all (bw_sink w) b in ({| bw_sink := s; bw_buf := bw_buf w |}, ok)
    else ({| bw_sink := bw_sink w; bw_buf := bw_buf w ++ b |}, true).
(** A sequence of [w.write_all(..)?]. *)
Fixpoint bw_write_seq (w : bufw) (l : list (list byte)) : bufw * bool :=
  match l with
  | [] => (w, true)
  | b :: r => let '(w, ok) := bw_write_all w b in if ok then bw_write_seq w r else (w, false)
  end.
(** The whole [write] method: BufWriter::new, the write_all calls, then drop, which flushes and ignores errors. *)
Definition write_to_sink (calls : list (list byte)) (s : sink) : sink * outcome unit :=
  let '(w, ok) := bw_write_seq {| bw_sink := s; bw_buf := [] |} calls in
  let '(w', _) := bw_flush w in
  (bw_sink w', if ok then Ok tt else Err IoError).
