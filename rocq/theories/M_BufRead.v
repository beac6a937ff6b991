(** Loading through io::BufReader: the layers that M_IO takes for transparent, over a medium that gives short reads, is
    interrupted, fails, or breaks off. *)
From Verif Require Export M_V1 M_V2 M_Bloom M_Lines.
Open Scope N_scope.

(** ** The medium: a [Read + Seek] *)
(** What the next call of read does: give at most so many bytes (at least one), fail with ErrorKind::Interrupted, fail otherwise. *)
Inductive step := Short (n : N) | Interrupt | Fail.
(** Content, position, the behaviour of the next calls (then full reads), and whether reading at the end fails for good instead of
    reporting the end of file. *)
Record medium := { md_all : list byte; md_pos : N; md_plan : list step; md_broken : bool }.
Definition md_upd (m : medium) (pos : N) (plan : list step) : medium :=
  {| md_all := md_all m; md_pos := pos; md_plan := plan; md_broken := md_broken m |}.
Definition md_rest (m : medium) : list byte := r_rest {| r_all := md_all m; r_pos := md_pos m |}.

Inductive rres := RBytes (b : list byte) | RInt | RFail.
Definition md_give (n : N) (m : medium) (plan : list step) : rres * medium :=
  match md_rest m with
  | [] => if md_broken m then (RFail, md_upd m (md_pos m) plan) else (RBytes [], md_upd m (md_pos m) plan)
  | t => let b := firstn (N.to_nat (N.min n (len t))) t in (RBytes b, md_upd m (md_pos m + len b) plan)
  end.
(** Read::read of [n] bytes. *)
Definition md_read (n : N) (m : medium) : rres * medium :=
  match md_plan m with
  | [] => md_give n m []
  | Short c :: p => md_give (N.min n (N.max 1 c)) m p
  | Interrupt :: p => (RInt, md_upd m (md_pos m) p)
  | Fail :: p => (RFail, md_upd m (md_pos m) p)
  end.
(** Seek::seek(SeekFrom::Current(off)). *)
Definition md_seek (off : Z) (m : medium) : bool * medium :=
  match md_plan m with
  | Fail :: p => (false, md_upd m (md_pos m) p)
  | p => let t := (Z.of_N (md_pos m) + off)%Z in
         if (t <? 0)%Z || (18446744073709551616 <=? t)%Z then (false, m) else (true, md_upd m (Z.to_N t) p)
  end.
(** Read::read_to_end (default_read_to_end): read until the end, starting again when interrupted. The sizes std asks for only
    bound the answers, which the plan bounds anyway. [None]: more calls than [fuel]. *)
Fixpoint md_end (fuel : nat) (acc : list byte) (m : medium) : option (outcome (list byte)) :=
  match fuel with
  | O => None
  | S f => match md_read u64_max m with
           | (RInt, m) => md_end f acc m
           | (RFail, _) => Some (Err IoError)
           | (RBytes [], _) => Some (Ok acc)
           | (RBytes b, m) => md_end f (acc ++ b) m
           end
  end.

(** What BufReader<R> uses of R. *)
Record rops (R : Type) := {
  o_read : N -> R -> rres * R;
  o_seek : Z -> R -> bool * R;
  o_end : R -> option (outcome (list byte))
}.
Arguments o_read {R}. Arguments o_seek {R}. Arguments o_end {R}.
Definition md_ops (fuel : nat) : rops medium := {| o_read := md_read; o_seek := md_seek; o_end := md_end fuel [] |}.

(** ** io::BufReader *)
(** Inner reader, what was read into the buffer, and how much of it is consumed. *)
Record bufr (R : Type) := { br_in : R; br_buf : list byte; br_pos : N }.
Arguments br_in {R}. Arguments br_buf {R}. Arguments br_pos {R}. Arguments Build_bufr {R}.
Definition br_new {R} (r : R) : bufr R := Build_bufr r [] 0.
(** BufReader::buffer. *)
Definition br_left {R} (b : bufr R) : list byte := skipn (N.to_nat (br_pos b)) (br_buf b).
(** Hand out at most [n] buffered bytes. *)
Definition br_take {R} (n : N) (b : bufr R) : rres * bufr R :=
  let x := firstn (N.to_nat (N.min n (len (br_left b)))) (br_left b) in
  (RBytes x, Build_bufr (br_in b) (br_buf b) (br_pos b + len x)).
(** Read::read: a request of at least the capacity goes round an empty buffer; otherwise an empty buffer is filled first. *)
Definition br_read {R} (o : rops R) (n : N) (b : bufr R) : rres * bufr R :=
  if (br_pos b =? len (br_buf b)) && (BUF_CAP <=? n) then
    let '(x, r) := o_read o n (br_in b) in (x, br_new r)
  else if br_pos b =? len (br_buf b) then
    match o_read o BUF_CAP (br_in b) with
    | (RBytes x, r) => br_take n (Build_bufr r x 0)
    | (x, r) => (x, br_new r)
    end
  else br_take n b.
(** Seek::seek(SeekFrom::Current(off)): the buffered bytes are given back; in two steps when the difference leaves i64. *)
Definition br_seek {R} (o : rops R) (off : Z) (b : bufr R) : bool * bufr R :=
  let left := Z.of_N (len (br_left b)) in
  if (-9223372036854775808 <=? off - left)%Z then
    let '(ok, r) := o_seek o (off - left) (br_in b) in (ok, if ok then br_new r else Build_bufr r (br_buf b) (br_pos b))
  else
    let '(ok, r) := o_seek o (- left) (br_in b) in
    if ok then let '(ok, r) := o_seek o off r in (ok, br_new r)
    else (false, Build_bufr r (br_buf b) (br_pos b)).
(** Read::read_to_end: the buffer, then read_to_end of the inner reader. *)
Definition br_end {R} (o : rops R) (b : bufr R) : option (outcome (list byte)) :=
  match o_end o (br_in b) with
  | Some (Ok d) => Some (Ok (br_left b ++ d))
  | x => x
  end.
Definition br_ops {R} (o : rops R) : rops (bufr R) := {| o_read := br_read o; o_seek := br_seek o; o_end := br_end o |}.

(** default_read_exact: read until everything is there, starting again when interrupted; UnexpectedEof at the end of file. *)
Fixpoint br_exact_loop {R} (fuel : nat) (o : rops R) (n : N) (acc : list byte) (b : bufr R) : option (outcome (list byte * bufr R)) :=
  if n =? 0 then Some (Ok (acc, b))
  else match fuel with
       | O => None
       | S f => match br_read o n b with
                | (RInt, b) => br_exact_loop f o n acc b
                | (RFail, _) => Some (Err IoError)
                | (RBytes [], _) => Some (Err IoError)
                | (RBytes x, b) => br_exact_loop f o (n - len x) (acc ++ x) b
                end
       end.
(** Read::read_exact: from the buffer when it holds enough. *)
Definition br_read_exact {R} (fuel : nat) (o : rops R) (n : N) (b : bufr R) : option (outcome (list byte * bufr R)) :=
  if br_pos b + n <=? len (br_buf b) then
    Some (Ok (firstn (N.to_nat n) (br_left b), Build_bufr (br_in b) (br_buf b) (br_pos b + n)))
  else br_exact_loop fuel o n [] b.
(** BufReader::seek_relative: inside the buffer when the target is there. *)
Definition br_seek_relative {R} (o : rops R) (off : Z) (b : bufr R) : option (outcome (bufr R)) :=
  let t := (Z.of_N (br_pos b) + off)%Z in
  if (0 <=? t)%Z && (t <=? Z.of_N (len (br_buf b)))%Z then Some (Ok (Build_bufr (br_in b) (br_buf b) (Z.to_N t)))
  else match br_seek o off b with
       | (true, b) => Some (Ok b)
       | (false, _) => Some (Err IoError)
       end.

(** ** The loaders over any reader *)
(** What the loaders use of their reader. *)
Record rif (S : Type) := {
  f_exact : N -> S -> option (outcome (list byte * S));
  f_seek : Z -> S -> option (outcome S);
  f_end : S -> option (outcome (list byte))
}.
Arguments f_exact {S}. Arguments f_seek {S}. Arguments f_end {S}.
Definition br_if {R} (fuel : nat) (o : rops R) : rif (bufr R) :=
  {| f_exact := br_read_exact fuel o; f_seek := br_seek_relative o; f_end := br_end o |}.
(** The reader of M_IO. *)
Definition io_if : rif reader :=
  {| f_exact := fun n r => Some (read_exact n r); f_seek := fun off r => Some (seek_relative off r); f_end := fun r => Some (Ok (read_to_end r)) |}.

Definition sbind {A B} (x : option (outcome A)) (k : A -> option (outcome B)) : option (outcome B) :=
  match x with None => None | Some (Ok a) => k a | Some (Err e) => Some (Err e) | Some Panic => Some Panic end.
Notation "'let!' x := e 'in' k" := (sbind e (fun x => k)) (at level 200, x pattern, e at level 100, k at level 200, right associativity).

Definition g_u64 {S} (i : rif S) (r : S) : option (outcome (u64 * S)) := let! (b, r) := f_exact i 8 r in Some (Ok (of_le b, r)).
Definition g_flags {S} (i : rif S) (r : S) : option (outcome (flags * S)) :=
  let! (b, r) := f_exact i 8 r in let! f := Some (flags_from_bytes b) in Some (Ok (f, r)).
Fixpoint g_many {S} (i : rif S) (n : nat) (size : usize) (r : S) : option (outcome (list (list byte) * S)) :=
  match n with
  | O => Some (Ok ([], r))
  | S n' => let! (b, r) := f_exact i size r in
            let! (bs, r) := g_many i n' size r in Some (Ok (b :: bs, r))
  end.
(** v1.rs:162-212. *)
Definition g_v1 {S} (i : rif S) (pr : profile) (r : S) (fl : flags) (partial : bool) : option (outcome v1) :=
  let! (cap, r) := g_u64 i r in
  let! (p, r) := g_u64 i r in
  let! (n_hash, r) := g_u64 i r in
  let! (bit_size, r) := g_u64 i r in
  let! (count, r) := g_u64 i r in
  let u64_size := v1_u64_size bit_size in
  let! (bitset, r) :=
    if partial then
      let! off := Some (checked_mul pr u64_size 8) in
      let! r := f_seek i (as_i64 off) r in Some (Ok ([], r))
    else
      let! _ := Some (vec_of 8 0 u64_size) in
      let! (ws, r) := g_many i (N.to_nat u64_size) 8 r in Some (Ok (map of_le ws, r))
  in
  let! data := f_end i r in
  Some (Ok {| v1_flags := fl; v1_bitset := bitset; v1_capacity := cap; v1_fpp := p; v1_n_hash := n_hash;
              v1_bit_size := bit_size; v1_count := count; v1_data := data; v1_fp := fp_new n_hash bit_size |}).
(** v2.rs:184-250. *)
Definition g_v2 {S} (i : rif S) (pr : profile) (r : S) (fl : flags) (partial : bool) : option (outcome v2) :=
  let! (capacity, r) := g_u64 i r in
  let! (fpp, r) := g_u64 i r in
  if negb (fpp_in_range fpp) then Some (Err (WrongFpp fpp))
  else
    let! (n_hash_buck, r) := g_u64 i r in
    let! (count, r) := g_u64 i r in
    let! (cache_bit_size, r) := g_u64 i r in
    let cache_byte_size := byte_cap_from_bit_cap cache_bit_size in
    let! (index_cache, r) :=
      if partial then
        let! r := f_seek i (as_i64 cache_byte_size) r in
        let! ic := Some (bs_with_bit_capacity 0) in Some (Ok (ic, r))
      else
        let! ic := Some (bs_with_bit_capacity cache_bit_size) in
        let! (b, r) := f_exact i (len ic) r in Some (Ok (b, r))
    in
    let! (n_buckets, r) := g_u64 i r in
    let! (buckets, r) :=
      if partial then
        let! off := Some (checked_mul pr n_buckets BUCKET_SIZE) in
        let! r := f_seek i (as_i64 off) r in Some (Ok ([], r))
      else
        let! _ := Some (vec_of BUCKET_SIZE bucket_new n_buckets) in
        g_many i (N.to_nat n_buckets) BUCKET_SIZE r
    in
    let! data := f_end i r in
    Some (Ok {| v2_flags := fl; v2_index_cache := index_cache; v2_n_buckets := n_buckets;
                v2_cache_byte_size := cache_byte_size; v2_capacity := capacity; v2_fpp := fpp;
                v2_n_hash_buck := n_hash_buck; v2_count := count; v2_buckets := buckets; v2_data := data |}).

(** bloom.rs:235-273: one BufReader for the flags (bloom.rs:239, 260), a second one around it for the rest (v1.rs:168, v2.rs:190). *)
Definition buf_load (fuel : nat) (pr : profile) (m : medium) (partial : bool) : option (outcome bloom) :=
  let o := md_ops fuel in
  let! (fl, a) := g_flags (br_if fuel o) (br_new m) in
  if fl_version fl =? 1 then let! f := g_v1 (br_if fuel (br_ops o)) pr (br_new a) fl partial in Some (Ok (V1 f))
  else if fl_version fl =? 2 then let! f := g_v2 (br_if fuel (br_ops o)) pr (br_new a) fl partial in Some (Ok (V2 f))
  else Some (Err (InvalidVersion (fl_version fl))).
(** v1.rs:150-160 and v2.rs:170-182: the same two layers. *)
Definition buf_v1 (fuel : nat) (pr : profile) (m : medium) (partial : bool) : option (outcome v1) :=
  let o := md_ops fuel in
  let! (fl, a) := g_flags (br_if fuel o) (br_new m) in
  if negb (fl_version fl =? 1) then Some (Err (InvalidVersion (fl_version fl))) else g_v1 (br_if fuel (br_ops o)) pr (br_new a) fl partial.
Definition buf_v2 (fuel : nat) (pr : profile) (m : medium) (partial : bool) : option (outcome v2) :=
  let o := md_ops fuel in
  let! (fl, a) := g_flags (br_if fuel o) (br_new m) in
  if negb (fl_version fl =? 2) then Some (Err (InvalidVersion (fl_version fl))) else g_v2 (br_if fuel (br_ops o)) pr (br_new a) fl partial.

(** ** BufRead::lines over a BufReader (bin/poppy.rs:205, 224, 326, 346, 384) *)
(** BufReader::fill_buf. *)
Definition br_fill {R} (o : rops R) (b : bufr R) : rres * bufr R :=
  if br_pos b =? len (br_buf b) then
    match o_read o BUF_CAP (br_in b) with
    | (RBytes x, r) => (RBytes x, Build_bufr r x 0)
    | (x, r) => (x, br_new r)
    end
  else (RBytes (br_left b), b).
(** Up to and including the first LF of [s], if there is one. *)
Fixpoint upto_lf (s : list byte) : option (list byte) :=
  match s with
  | [] => None
  | c :: r => if c =? LF then Some [c] else match upto_lf r with Some x => Some (c :: x) | None => None end
  end.
(** BufRead::read_until(LF): [Some (None, b)] is an error (what was read of the line is lost to [lines]). *)
Fixpoint br_until {R} (fuel : nat) (o : rops R) (acc : list byte) (b : bufr R) : option (option (list byte) * bufr R) :=
  match fuel with
  | O => None
  | S f => match br_fill o b with
           | (RInt, b) => br_until f o acc b
           | (RFail, b) => Some (None, b)
           | (RBytes s, b) =>
             let consume n := Build_bufr (br_in b) (br_buf b) (br_pos b + n) in
             match upto_lf s with
             | Some x => Some (Some (acc ++ x), consume (len x))
             | None => match s with [] => Some (Some acc, b) | _ => br_until f o (acc ++ s) (consume (len s)) end
             end
           end
  end.
(** The items of Lines until it returns None: a line, or [None] for an error (the iteration goes on after it). The first argument
    bounds the items. *)
Fixpoint br_lines {R} (n fuel : nat) (o : rops R) (b : bufr R) : option (list (option (list byte))) :=
  match n with
  | O => None
  | S n' => match br_until fuel o [] b with
            | None => None
            | Some (Some [], _) => Some []
            | Some (Some seg, b) => option_map (cons (if utf8_valid seg then Some (chomp seg) else None)) (br_lines n' fuel o b)
            | Some (None, b) => option_map (cons None) (br_lines n' fuel o b)
            end
  end.
(** [io::BufReader::new(of).lines().count()] (poppy.rs:205). *)
Definition buf_count (n fuel : nat) (m : medium) : option N := option_map len (br_lines n fuel (md_ops fuel) (br_new m)).
(** [for line in BufReader::new(f).lines() { let line = line?; .. }] (poppy.rs:224, 326, 346, 384): the lines handled, and whether
    the loop came to the end. *)
Fixpoint br_each {R} (n fuel : nat) (o : rops R) (b : bufr R) : option (list (list byte) * bool) :=
  match n with
  | O => None
  | S n' => match br_until fuel o [] b with
            | None => None
            | Some (Some [], _) => Some ([], true)
            | Some (Some seg, b) => if utf8_valid seg then option_map (fun x => (chomp seg :: fst x, snd x)) (br_each n' fuel o b) else Some ([], false)
            | Some (None, _) => Some ([], false)
            end
  end.
Definition buf_each (n fuel : nat) (m : medium) : option (list (list byte) * bool) := br_each n fuel (md_ops fuel) (br_new m).
