(** poppy/src/bloom.rs: parameters and the version-independent filter; python/src/lib.rs wrappers. *)
From Verif Require Export M_V2.
Open Scope N_scope.

(** bloom.rs:10. *)
Definition DEFAULT_VERSION : byte := 2.

(** bloom.rs:129-163 [Params]. *)
Record params := { p_version : byte; p_capacity : usize; p_fpp : f64_bits; p_opt : optlevel }.
Definition params_new (capacity : usize) (fpp : f64_bits) : params :=
  {| p_version := DEFAULT_VERSION; p_capacity := capacity; p_fpp := fpp; p_opt := ONone |}.
Definition params_version (p : params) (v : byte) : params :=
  {| p_version := v; p_capacity := p_capacity p; p_fpp := p_fpp p; p_opt := p_opt p |}.
Definition params_opt (p : params) (o : optlevel) : params :=
  {| p_version := p_version p; p_capacity := p_capacity p; p_fpp := p_fpp p; p_opt := o |}.

(** bloom.rs:165-173 with v1.rs:94-99 and v2.rs:157-162. *)
Definition params_try_into_v1 (L : libm) (p : params) : outcome v1 := v1_with_capacity L (p_capacity p) (p_fpp p).
Definition params_try_into_v2 (pr : profile) (L : libm) (p : params) : outcome v2 :=
  v2_make pr L (p_capacity p) (p_fpp p) (p_opt p).

(** bloom.rs:197-200. *)
Inductive bloom := V1 (f : v1) | V2 (f : v2).

(** bloom.rs:203-215 [with_version_capacity_opt]. *)
Definition bf_with_version_capacity_opt (pr : profile) (L : libm) (version : byte) (cap : usize) (fpp : f64_bits)
  (opt : optlevel) : outcome bloom :=
  if version =? 1 then let? f := v1_with_capacity L cap fpp in Ok (V1 f)
  else if version =? 2 then let? f := v2_make pr L cap fpp opt in Ok (V2 f)
  else Err (InvalidVersion version).
(** bloom.rs:217-220 [with_version_capacity]. *)
Definition bf_with_version_capacity pr L version cap fpp :=
  bf_with_version_capacity_opt pr L version cap fpp ONone.
(** bloom.rs:222-225 [with_capacity]. *)
Definition bf_with_capacity (pr : profile) (L : libm) (cap : usize) (fpp : f64_bits) : outcome bloom :=
  let? f := v2_with_capacity pr L cap fpp in Ok (V2 f).
(** bloom.rs:176-181 [TryFrom<Params>]. *)
Definition bf_of_params (pr : profile) (L : libm) (p : params) : outcome bloom :=
  bf_with_version_capacity_opt pr L (p_version p) (p_capacity p) (p_fpp p) (p_opt p).

(** bloom.rs:235-252 [from_reader] and 254-273 [partial_from_reader]. *)
Definition bf_from_reader_partial (pr : profile) (content : list byte) (partial : bool) : outcome bloom :=
  let? (fl, r) := read_flags (reader_of content) in
  if fl_version fl =? 1 then let? f := v1_from_reader_with_flags pr r fl partial in Ok (V1 f)
  else if fl_version fl =? 2 then let? f := v2_from_reader_with_flags pr r fl partial in Ok (V2 f)
  else Err (InvalidVersion (fl_version fl)).
Definition bf_from_reader pr content := bf_from_reader_partial pr content false.
Definition bf_partial_from_reader pr content := bf_from_reader_partial pr content true.

(** bloom.rs:275-282 [insert_bytes]. *)
Definition bf_insert_bytes (pr : profile) (wy : hasher) (f : bloom) (d : list byte) : bloom * outcome bool :=
  match f with
  | V1 b => let '(b', r) := v1_insert_bytes pr b d in (V1 b', r)
  | V2 b => let '(b', r) := v2_insert_bytes pr wy b d in (V2 b', r)
  end.
(** bloom.rs:284-291 [contains_bytes]. *)
Definition bf_contains_bytes (wy : hasher) (f : bloom) (d : list byte) : outcome bool :=
  match f with V1 b => v1_contains_bytes b d | V2 b => v2_contains_bytes wy b d end.

(** bloom.rs:227-233 [fill]. *)
Fixpoint bf_fill (pr : profile) (wy : hasher) (f : bloom) (dataset : list (list byte)) : bloom * outcome unit :=
  match dataset with
  | [] => (f, Ok tt)
  | d :: r => match bf_insert_bytes pr wy f d with
              | (f', Ok _) => bf_fill pr wy f' r
              | (f', Err e) => (f', Err e)
              | (f', Panic) => (f', Panic)
              end
  end.

(** bloom.rs:447-462 [bloom!]: unwrap turns every error into a panic. *)
Fixpoint bloom_insert_all (pr : profile) (wy : hasher) (f : bloom) (values : list (list byte)) : outcome bloom :=
  match values with
  | [] => Ok f
  | d :: r => let '(f', o) := bf_insert_bytes pr wy f d in let? _ := unwrap o in bloom_insert_all pr wy f' r
  end.
Definition bloom_macro (pr : profile) (wy : hasher) (L : libm) (cap : usize) (fpp : f64_bits) (values : list (list byte)) : outcome bloom :=
  let? b := unwrap (bf_with_capacity pr L cap fpp) in bloom_insert_all pr wy b values.

(** bloom.rs:293-300 [write]. *)
Definition bf_write_calls (f : bloom) : list (list byte) :=
  match f with V1 b => v1_write_calls b | V2 b => v2_write_calls b end.
Definition bf_write (f : bloom) : list byte := concat (bf_write_calls f).

(** bloom.rs:302-309 [version]. *)
Definition bf_version (f : bloom) : byte := match f with V1 _ => 1 | V2 _ => 2 end.
(** bloom.rs:311-323 [has_same_params]. *)
Definition bf_has_same_params (a b : bloom) : outcome bool :=
  if negb (bf_version a =? bf_version b) then Ok false
  else match a, b with
       | V1 s, V1 o => Ok (v1_has_same_params s o)
       | V2 s, V2 o => Ok (v2_has_same_params s o)
       | _, _ => Panic                           (* unreachable!() *)
       end.
(** bloom.rs:325-340 [union_merge]. *)
Definition bf_union_merge (pr : profile) (L : libm) (a b : bloom) : bloom * outcome unit :=
  match bf_has_same_params a b with
  | Ok true =>
    match a, b with
    | V1 s, V1 o => let '(s', r) := v1_union_merge L s o in (V1 s', r)
    | V2 s, V2 o => let '(s', r) := v2_union_merge pr L s o in (V2 s', r)
    | _, _ => (a, Panic)
    end
  | Ok false => (a, Err Merge)
  | Err e => (a, Err e)
  | Panic => (a, Panic)
  end.
(** bloom.rs:342-356 [count_common_entries]. *)
Definition bf_count_common_entries (pr : profile) (L : libm) (a b : bloom) : outcome usize :=
  let? same := bf_has_same_params a b in
  if negb same then Err Merge
  else match a, b with
       | V1 s, V1 o => v1_count_common_entries L s o
       | V2 s, V2 o => v2_count_common_entries pr L s o
       | _, _ => Panic
       end.
(** bloom.rs:358-417 accessors and [clear]. *)
Definition bf_capacity (f : bloom) : usize := match f with V1 b => v1_capacity b | V2 b => v2_capacity b end.
Definition bf_clear (f : bloom) : bloom := match f with V1 b => V1 (v1_clear b) | V2 b => V2 (v2_clear b) end.
Definition bf_fpp (f : bloom) : f64_bits := match f with V1 b => v1_fpp b | V2 b => v2_fpp b end.
Definition bf_size_in_bytes (pr : profile) (f : bloom) : outcome usize :=
  match f with V1 b => v1_size_in_bytes pr b | V2 b => v2_size_in_bytes pr b end.
Definition bf_count_estimate (f : bloom) : u64 :=
  match f with V1 b => v1_count_estimate b | V2 b => v2_count_estimate b end.
Definition bf_is_full (f : bloom) : bool := match f with V1 b => v1_is_full b | V2 b => v2_is_full b end.
Definition bf_data (f : bloom) : list byte := match f with V1 b => v1_data b | V2 b => v2_data b end.

(** ** python/src/lib.rs: a Python filter wraps a [bloom]; errors become ValueError ([Err]). *)
(** lib.rs:27-34 [loads]. *)
Definition py_loads (pr : profile) (bytes : list byte) : outcome bloom := bf_from_reader pr bytes.
(** lib.rs:112-119 [dumps]: write to a cursor, then collect its bytes. *)
Definition py_dumps (f : bloom) : list byte := bf_write f.
(** lib.rs:46-52 [new], 54-62 [with_version], 64-74 [with_params]. *)
Definition py_new := bf_with_capacity.
Definition py_with_version := bf_with_version_capacity.
Definition py_with_params (pr : profile) (L : libm) (version : byte) (capacity : usize) (fpp : f64_bits) (opt : byte)
  : outcome bloom :=
  let? o := opt_of_u8 opt in
  bf_of_params pr L (params_opt (params_version (params_new capacity fpp) version) o).
(** lib.rs:76-110: insert_bytes/insert_str, contains_bytes/contains_str, is_full, union_merge, count_common_entries
    forward to the functions above; a str is passed as its UTF-8 bytes. *)
Definition py_insert_bytes := bf_insert_bytes.
Definition py_insert_str := bf_insert_bytes.
Definition py_contains_bytes := bf_contains_bytes.
Definition py_contains_str := bf_contains_bytes.
