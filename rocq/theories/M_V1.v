(** poppy/src/bloom/v1.rs: the DCSO-compatible filter. *)
From Verif Require Export M_IO.
Open Scope N_scope.

(** v1.rs:74-92. *)
Record v1 := {
  v1_flags : flags;
  v1_bitset : list u64;
  v1_capacity : u64;
  v1_fpp : f64_bits;
  v1_n_hash : u64;
  v1_bit_size : u64;
  v1_count : u64;
  v1_data : list byte;
  v1_fp : fingerprint
}.

(** Field updates used by the mutating methods. *)
Definition v1_set_bits (f : v1) (bits : list u64) (count : u64) : v1 :=
  {| v1_flags := v1_flags f; v1_bitset := bits; v1_capacity := v1_capacity f; v1_fpp := v1_fpp f;
     v1_n_hash := v1_n_hash f; v1_bit_size := v1_bit_size f; v1_count := count; v1_data := v1_data f;
     v1_fp := v1_fp f |}.
(** [b.data = data] (public field, v1.rs:90). *)
Definition v1_set_data (f : v1) (d : list byte) : v1 :=
  {| v1_flags := v1_flags f; v1_bitset := v1_bitset f; v1_capacity := v1_capacity f; v1_fpp := v1_fpp f;
     v1_n_hash := v1_n_hash f; v1_bit_size := v1_bit_size f; v1_count := v1_count f; v1_data := d;
     v1_fp := v1_fp f |}.

(** v1.rs:113 and 178: ceil(bit_size as f64 / 64.0). *)
Definition v1_u64_size (bit_size : u64) : u64 := f_to_u64 (f_ceil (f_div (f_of_u64 bit_size) (f_of_u64 64))).

(** v1.rs:104-128 [with_capacity]. *)
Definition v1_with_capacity (L : libm) (cap : u64) (fpp : f64_bits) : outcome v1 :=
  if negb (fpp_in_range fpp) then Err (WrongFpp fpp)
  else
    let bit_size := bu_bit_size L cap fpp in
    let u64_size := v1_u64_size bit_size in
    let n_hash_fn := bu_k L bit_size cap in
    let? bits := vec_of 8 0 u64_size in
    Ok {| v1_flags := flags_new 1; v1_bitset := bits; v1_capacity := cap; v1_fpp := fpp;
          v1_n_hash := n_hash_fn; v1_bit_size := bit_size; v1_count := 0; v1_data := [];
          v1_fp := fp_new n_hash_fn bit_size |}.

(** v1.rs:162-212 [from_reader_with_flags]. *)
Definition v1_from_reader_with_flags (pr : profile) (r : reader) (fl : flags) (partial : bool) : outcome v1 :=
  let? (cap, r) := read_le_u64 r in
  let? (p, r) := read_le_f64 r in
  let? (n_hash, r) := read_le_u64 r in
  let? (bit_size, r) := read_le_u64 r in
  let? (count, r) := read_le_u64 r in
  let u64_size := v1_u64_size bit_size in
  let? (bitset, r) :=
    if partial then
      let? off := checked_mul pr u64_size 8 in
      let? r := seek_relative (as_i64 off) r in Ok ([], r)
    else
      let? _ := vec_of 8 0 u64_size in
      let? (ws, r) := read_many (N.to_nat u64_size) 8 r in Ok (map of_le ws, r)
  in
  let data := read_to_end r in
  Ok {| v1_flags := fl; v1_bitset := bitset; v1_capacity := cap; v1_fpp := p; v1_n_hash := n_hash;
        v1_bit_size := bit_size; v1_count := count; v1_data := data; v1_fp := fp_new n_hash bit_size |}.

(** v1.rs:150-160 [_from_reader], 145-148 [from_reader]. *)
Definition v1_from_reader_partial (pr : profile) (content : list byte) (partial : bool) : outcome v1 :=
  let? (fl, r) := read_flags (reader_of content) in
  if negb (fl_version fl =? 1) then Err (InvalidVersion (fl_version fl))
  else v1_from_reader_with_flags pr r fl partial.
Definition v1_from_reader (pr : profile) (content : list byte) : outcome v1 :=
  v1_from_reader_partial pr content false.

(** v1.rs:214-233 [write]: the successive write_all calls. *)
Definition v1_write_calls (f : v1) : list (list byte) :=
  [flags_to_bytes (flags_new 1); le_bytes 8 (v1_capacity f); le_bytes 8 (v1_fpp f); le_bytes 8 (v1_n_hash f);
   le_bytes 8 (v1_bit_size f); le_bytes 8 (v1_count f)]
  ++ map (le_bytes 8) (v1_bitset f) ++ [v1_data f].
(** What an unfailing writer receives. *)
Definition v1_write (f : v1) : list byte := concat (v1_write_calls f).

(** v1.rs:235-243 [get_nth_bit]. *)
Definition v1_get_nth_bit (bits : list u64) (index : u64) : outcome bool :=
  let iblock := index / 64 in
  let ibit := index mod 64 in
  let bit := w64 (N.shiftl 1 ibit) in
  match getN bits iblock with
  | None => Panic
  | Some x => Ok (N.land x bit =? bit)
  end.

(** v1.rs:245-249 [bits]: get_nth_bit of 0..bit_size. *)
Fixpoint v1_bits_from (bits : list u64) (start : u64) (n : nat) : outcome (list bool) :=
  match n with
  | O => Ok []
  | S n' => let? b := v1_get_nth_bit bits start in
            let? r := v1_bits_from bits (start + 1) n' in Ok (b :: r)
  end.
Definition v1_bits (f : v1) : outcome (list bool) := v1_bits_from (v1_bitset f) 0 (N.to_nat (v1_bit_size f)).

(** v1.rs:261-287, the loop of [insert_bytes]; [full] is [self.count >= self.capacity]. *)
Fixpoint v1_insert_loop (pr : profile) (full : bool) (bits : list u64) (new : bool) (idxs : list (outcome u64))
  : list u64 * outcome bool :=
  match idxs with
  | [] => (bits, Ok new)
  | Err e :: _ => (bits, Err e)
  | Panic :: _ => (bits, Panic)
  | Ok index :: r =>
    let iblock := index / 64 in
    let ibit := index mod 64 in
    match getN bits iblock with
    | None => (bits, Panic)                      (* expect("block index out of bound") *)
    | Some entry =>
      let bit := w64 (N.shiftl 1 ibit) in
      let old := N.land entry bit =? bit in
      if negb old && full then (bits, Err TooManyEntries)
      else
        let bits' := setN bits iblock (N.lor entry bit) in
        let new' := if old then new else true in
        match pr with
        | Release => v1_insert_loop pr full bits' new' r
        | Debug =>                               (* debug_assert!(self.get_nth_bit(index)) *)
          match v1_get_nth_bit bits' index with
          | Ok true => v1_insert_loop pr full bits' new' r
          | _ => (bits', Panic)
          end
        end
    end
  end.

(** v1.rs:251-294 [insert_bytes]. *)
Definition v1_insert_bytes (pr : profile) (f : v1) (value : list byte) : v1 * outcome bool :=
  if v1_capacity f =? 0 then (f, Err TooManyEntries)
  else
    let full := v1_capacity f <=? v1_count f in
    let '(bits, r) := v1_insert_loop pr full (v1_bitset f) false (fp_list (fp_fingerprint (v1_fp f) value)) in
    let f1 := v1_set_bits f bits (v1_count f) in
    match r with
    | Err e => (f1, Err e)
    | Panic => (f1, Panic)
    | Ok new =>
      if new then
        match checked_add pr (v1_count f) 1 with
        | Ok c => (v1_set_bits f bits c, Ok true)
        | Err e => (f1, Err e)
        | Panic => (f1, Panic)
        end
      else (f1, Ok false)
    end.

(** v1.rs:296-301 [clear]. *)
Definition v1_clear (f : v1) : v1 := v1_set_bits f (map (fun _ => 0) (v1_bitset f)) 0.

(** v1.rs:309-314, the loop of [contains_bytes]. *)
Fixpoint v1_contains_loop (bits : list u64) (idxs : list (outcome u64)) : outcome bool :=
  match idxs with
  | [] => Ok true
  | Err e :: _ => Err e
  | Panic :: _ => Panic
  | Ok index :: r =>
    let? b := v1_get_nth_bit bits index in
    if b then v1_contains_loop bits r else Ok false
  end.
(** v1.rs:303-315 [contains_bytes]. *)
Definition v1_contains_bytes (f : v1) (value : list byte) : outcome bool :=
  match v1_bitset f with
  | [] => Ok false
  | _ => v1_contains_loop (v1_bitset f) (fp_list (fp_fingerprint (v1_fp f) value))
  end.

(** v1.rs:317-327 [count_ones]/[count_zeros] (u64::count_zeros is 64 - count_ones). *)
Definition v1_count_ones (f : v1) : usize := sumN (map count_ones (v1_bitset f)).
Definition v1_count_zeros (f : v1) : usize := sumN (map (fun x => 64 - count_ones x) (v1_bitset f)).

(** v1.rs:329-334 [update_count]. *)
Definition v1_update_count (L : libm) (f : v1) : v1 :=
  v1_set_bits f (v1_bitset f) (estimate_count L (v1_bit_size f) (v1_count_ones f) (v1_n_hash f)).

(** v1.rs:336-354 accessors. *)
Definition v1_count_estimate (f : v1) : u64 := v1_count f.
Definition v1_size_in_u64 (f : v1) : usize := v1_bit_size f.
Definition v1_size_in_bytes (pr : profile) (f : v1) : outcome usize := checked_mul pr (v1_size_in_u64 f) 8.
(** v1.rs:366-370 [is_full]. *)
Definition v1_is_full (f : v1) : bool := v1_count_estimate f =? v1_capacity f.
(** v1.rs:130-133 [estimated_p]. *)
Definition v1_estimated_p (L : libm) (f : v1) : spec_float := bu_estimate_p L (v1_count f) (v1_bit_size f).

(** v1.rs:372-380 [has_same_params]. *)
Definition v1_has_same_params (a b : v1) : bool :=
  flags_eqb (v1_flags a) (v1_flags b) && (v1_capacity a =? v1_capacity b) && fpp_eqb (v1_fpp a) (v1_fpp b)
  && (v1_n_hash a =? v1_n_hash b) && (v1_bit_size a =? v1_bit_size b)
  && (len (v1_bitset a) =? len (v1_bitset b)).

(** v1.rs:382-392 [count_ones_in_common]. *)
Definition v1_ones_in_common (a b : v1) : outcome usize :=
  if len (v1_bitset a) =? len (v1_bitset b)
  then let? l := zip_with (fun x y => count_ones (N.land x y)) (v1_bitset a) (v1_bitset b) in Ok (sumN l)
  else Panic.

(** v1.rs:394-406 [count_common_entries]. *)
Definition v1_count_common_entries (L : libm) (a b : v1) : outcome usize :=
  if negb (v1_has_same_params a b) then Err Merge
  else let? ones := v1_ones_in_common a b in Ok (estimate_count L (v1_bit_size a) ones (v1_n_hash a)).

(** v1.rs:408-426 [union_merge]. *)
Definition v1_union_merge (L : libm) (a b : v1) : v1 * outcome unit :=
  if negb (v1_has_same_params a b) then (a, Err Merge)
  else match zip_with N.lor (v1_bitset a) (v1_bitset b) with
       | Ok bits => (v1_update_count L (v1_set_bits a bits (v1_count a)), Ok tt)
       | Err e => (a, Err e)
       | Panic => (a, Panic)
       end.
