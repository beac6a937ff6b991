(** What the code uses: memory requested by the readers, bits visited by insertions and queries. The definitions repeat those of
    M_V1.v, M_V2.v and M_Bloom.v with a meter; C95_same and C96_same say that without the meter they are those. *)
From Verif Require Export M_Bloom.
Open Scope N_scope.

(** A result and the units spent until it was reached. *)
Definition metered A := (N * outcome A)%type.
Definition spend {A} (n : N) (x : outcome A) : metered A := (n, x).
Definition free {A} (x : outcome A) : metered A := (0, x).
Definition mbind {A B} (x : metered A) (k : A -> metered B) : metered B :=
  match x with
  | (n, Ok a) => let (m, r) := k a in (n + m, r)
  | (n, Err e) => (n, Err e)
  | (n, Panic) => (n, Panic)
  end.
Notation "'let!' x := e 'in' k" := (mbind e (fun x => k))
  (at level 200, x pattern, e at level 100, k at level 200, right associativity).

(** ** Memory *)
(** [vec![x; n]] requests [n * size] bytes at once; the capacity overflow panics before. *)
Definition vec_of_m {A} (size : N) (x : A) (n : usize) : metered (list A) :=
  if n * size <=? isize_max then (n * size, Ok (repeat x (N.to_nat n))) else (0, Panic).
(** io::BufReader::new: a buffer of 8 KiB. *)
Definition new_buffer : metered unit := (BUF_CAP, Ok tt).
(** read_to_end into an empty vector: counted as what it holds at the end (its spare capacity is left out). *)
Definition read_to_end_m (r : reader) : metered (list byte) := (len (read_to_end r), Ok (read_to_end r)).

(** v1.rs:162-212; the fields are read into the stack. *)
Definition v1_load_m (pr : profile) (r : reader) (fl : flags) (partial : bool) : metered v1 :=
  let! _ := new_buffer in
  let! (cap, r) := free (read_le_u64 r) in
  let! (p, r) := free (read_le_f64 r) in
  let! (n_hash, r) := free (read_le_u64 r) in
  let! (bit_size, r) := free (read_le_u64 r) in
  let! (count, r) := free (read_le_u64 r) in
  let u64_size := v1_u64_size bit_size in
  let! (bitset, r) :=
    if partial then
      free (let? off := checked_mul pr u64_size 8 in
            let? r := seek_relative (as_i64 off) r in Ok ([], r))
    else
      let! _ := vec_of_m 8 0 u64_size in
      free (let? (ws, r) := read_many (N.to_nat u64_size) 8 r in Ok (map of_le ws, r))
  in
  let! data := read_to_end_m r in
  free (Ok {| v1_flags := fl; v1_bitset := bitset; v1_capacity := cap; v1_fpp := p; v1_n_hash := n_hash;
              v1_bit_size := bit_size; v1_count := count; v1_data := data; v1_fp := fp_new n_hash bit_size |}).

(** v2.rs:184-250. *)
Definition v2_load_m (pr : profile) (r : reader) (fl : flags) (partial : bool) : metered v2 :=
  let! _ := new_buffer in
  let! (capacity, r) := free (read_le_u64 r) in
  let! (fpp, r) := free (read_le_f64 r) in
  if negb (fpp_in_range fpp) then free (Err (WrongFpp fpp))
  else
    let! (n_hash_buck, r) := free (read_le_u64 r) in
    let! (count, r) := free (read_le_u64 r) in
    let! (cache_bit_size, r) := free (read_le_u64 r) in
    let cache_byte_size := byte_cap_from_bit_cap cache_bit_size in
    let! (index_cache, r) :=
      if partial then
        free (let? r := seek_relative (as_i64 cache_byte_size) r in
              let? ic := bs_with_bit_capacity 0 in Ok (ic, r))
      else
        let! ic := vec_of_m 1 0 (byte_cap_from_bit_cap cache_bit_size) in
        free (let? (b, r) := read_exact (len ic) r in Ok (b, r))
    in
    let! (n_buckets, r) := free (read_le_u64 r) in
    let! (buckets, r) :=
      if partial then
        free (let? off := checked_mul pr n_buckets BUCKET_SIZE in
              let? r := seek_relative (as_i64 off) r in Ok ([], r))
      else
        let! _ := vec_of_m BUCKET_SIZE bucket_new n_buckets in
        free (read_many (N.to_nat n_buckets) BUCKET_SIZE r)
    in
    let! data := read_to_end_m r in
    free (Ok {| v2_flags := fl; v2_index_cache := index_cache; v2_n_buckets := n_buckets;
                v2_cache_byte_size := cache_byte_size; v2_capacity := capacity; v2_fpp := fpp;
                v2_n_hash_buck := n_hash_buck; v2_count := count; v2_buckets := buckets; v2_data := data |}).

(** bloom.rs:235-252 [from_reader] and 254-273 [partial_from_reader]. *)
Definition bf_load_m (pr : profile) (content : list byte) (partial : bool) : metered bloom :=
  let! _ := new_buffer in
  let! (fl, r) := free (read_flags (reader_of content)) in
  if fl_version fl =? 1 then let! f := v1_load_m pr r fl partial in free (Ok (V1 f))
  else if fl_version fl =? 2 then let! f := v2_load_m pr r fl partial in free (Ok (V2 f))
  else free (Err (InvalidVersion (fl_version fl))).

(** ** Bits visited *)
(** v2.rs:487-491: one bit of the bucket per step. *)
Fixpoint v2_contains_loop_m (b : bucket) (idxs : list u64) : metered bool :=
  match idxs with
  | [] => free (Ok true)
  | ibit :: r => let! x := spend 1 (bs_get b ibit) in if x then v2_contains_loop_m b r else free (Ok false)
  end.
(** v2.rs:431-494 [contains_iter]. *)
Definition v2_contains_iter_m (wy : hasher) (f : v2) (it : index_iter) : metered bool :=
  if negb (it_is_init it) then free (Err UninitIter)
  else
    let it := it_set_count it (v2_n_hash_buck f) in
    if v2_capacity f =? 0 then free (Ok false)
    else
      let h := it_bucket_hash it in
      let! hit :=
        if bs_is_empty (v2_index_cache f) then free (Ok true) else spend 1 (bs_get (v2_index_cache f) (v2_cache_index f h)) in
      if negb hit then free (Ok false)
      else
        let! ibucket := free (v2_ibucket f h) in
        match getN (v2_buckets f) ibucket with
        | None => free Panic
        | Some b => v2_contains_loop_m b (it_list wy BIT_SET_MOD it)
        end.
(** v2.rs:503-512. *)
Definition v2_contains_m (wy : hasher) (f : v2) (k : key) : metered bool :=
  let (n, x) := v2_contains_iter_m wy f (v2_build_index_iter wy k) in (n, unwrap x).

(** v1.rs:309-315: one bit per step. *)
Fixpoint v1_contains_loop_m (bits : list u64) (idxs : list (outcome u64)) : metered bool :=
  match idxs with
  | [] => free (Ok true)
  | Err e :: _ => free (Err e)
  | Panic :: _ => free Panic
  | Ok index :: r =>
    let! b := spend 1 (v1_get_nth_bit bits index) in
    if b then v1_contains_loop_m bits r else free (Ok false)
  end.
Definition v1_contains_m (f : v1) (value : list byte) : metered bool :=
  match v1_bitset f with
  | [] => free (Ok false)
  | _ => v1_contains_loop_m (v1_bitset f) (fp_list (fp_fingerprint (v1_fp f) value))
  end.

(** v2.rs:391-399, the loop of [insert_iter]: one bit per step, whatever is done to it (the check of a debug build is left out). *)
Fixpoint v2_insert_loop_m (pr : profile) (reached_cap : bool) (b : bucket) (new : bool) (idxs : list u64)
  : N * (bucket * outcome bool) :=
  match idxs with
  | [] => (0, (b, Ok new))
  | ibit :: r =>
    match (if reached_cap then bs_get b ibit else Ok true) with
    | Err e => (1, (b, Err e))
    | Panic => (1, (b, Panic))
    | Ok false => (1, (b, Err TooManyEntries))
    | Ok true =>
      match bs_set b ibit with
      | (b', Err e) => (1, (b', Err e))
      | (b', Panic) => (1, (b', Panic))
      | (b', Ok old) =>
        let new' := if old then new else true in
        let (n, x) := v2_insert_loop_m pr reached_cap b' new' r in
        match pr with
        | Release => (1 + n, x)
        | Debug =>
          match bs_get b' ibit with
          | Ok true => (1 + n, x)
          | _ => (1, (b', Panic))
          end
        end
      end
    end
  end.
(** v2.rs:357-411 [insert_iter]; the bit of the cache counts as well. *)
Definition v2_insert_iter_m (pr : profile) (wy : hasher) (f : v2) (it : index_iter) : N * (v2 * outcome bool) :=
  if negb (it_is_init it) then (0, (f, Err UninitIter))
  else
    let it := it_set_count it (v2_n_hash_buck f) in
    if v2_capacity f =? 0 then (0, (f, Err TooManyEntries))
    else
      let h := it_bucket_hash it in
      match v2_ibucket f h with
      | Err e => (0, (f, Err e))
      | Panic => (0, (f, Panic))
      | Ok ibucket =>
        match getN (v2_buckets f) ibucket with
        | None => (0, (f, Panic))
        | Some b =>
          let reached_cap := v2_count f =? v2_capacity f in
          let '(n, (b', r)) := v2_insert_loop_m pr reached_cap b false (it_list wy BIT_SET_MOD it) in
          let buckets := setN (v2_buckets f) ibucket b' in
          let f1 := v2_upd f (v2_index_cache f) buckets (v2_count f) in
          match r with
          | Err e => (n, (f1, Err e))
          | Panic => (n, (f1, Panic))
          | Ok new =>
            match (if new then checked_add pr (v2_count f) 1 else Ok (v2_count f)) with
            | Err e => (n, (f1, Err e))
            | Panic => (n, (f1, Panic))
            | Ok count =>
              if bs_is_empty (v2_index_cache f) then (n, (v2_upd f (v2_index_cache f) buckets count, Ok new))
              else
                match bs_set (v2_index_cache f) (v2_cache_index f h) with
                | (cache, Ok _) => (n + 1, (v2_upd f cache buckets count, Ok new))
                | (cache, Err e) => (n + 1, (v2_upd f cache buckets count, Err e))
                | (cache, Panic) => (n + 1, (v2_upd f cache buckets count, Panic))
                end
            end
          end
        end
      end.
Definition v2_insert_m (pr : profile) (wy : hasher) (f : v2) (k : key) : N * (v2 * outcome bool) :=
  v2_insert_iter_m pr wy f (v2_build_index_iter wy k).

(** v1.rs:261-287, the loop of [insert_bytes]. *)
Fixpoint v1_insert_loop_m (pr : profile) (full : bool) (bits : list u64) (new : bool) (idxs : list (outcome u64))
  : N * (list u64 * outcome bool) :=
  match idxs with
  | [] => (0, (bits, Ok new))
  | Err e :: _ => (0, (bits, Err e))
  | Panic :: _ => (0, (bits, Panic))
  | Ok index :: r =>
    let iblock := index / 64 in
    let ibit := index mod 64 in
    match getN bits iblock with
    | None => (1, (bits, Panic))
    | Some entry =>
      let bit := w64 (N.shiftl 1 ibit) in
      let old := N.land entry bit =? bit in
      if negb old && full then (1, (bits, Err TooManyEntries))
      else
        let bits' := setN bits iblock (N.lor entry bit) in
        let new' := if old then new else true in
        let (n, x) := v1_insert_loop_m pr full bits' new' r in
        match pr with
        | Release => (1 + n, x)
        | Debug =>
          match v1_get_nth_bit bits' index with
          | Ok true => (1 + n, x)
          | _ => (1, (bits', Panic))
          end
        end
    end
  end.
(** v1.rs:251-294 [insert_bytes]. *)
Definition v1_insert_m (pr : profile) (f : v1) (value : list byte) : N * (v1 * outcome bool) :=
  if v1_capacity f =? 0 then (0, (f, Err TooManyEntries))
  else
    let full := v1_capacity f <=? v1_count f in
    let '(n, (bits, r)) := v1_insert_loop_m pr full (v1_bitset f) false (fp_list (fp_fingerprint (v1_fp f) value)) in
    let f1 := v1_set_bits f bits (v1_count f) in
    match r with
    | Err e => (n, (f1, Err e))
    | Panic => (n, (f1, Panic))
    | Ok new =>
      if new then
        match checked_add pr (v1_count f) 1 with
        | Ok c => (n, (v1_set_bits f bits c, Ok true))
        | Err e => (n, (f1, Err e))
        | Panic => (n, (f1, Panic))
        end
      else (n, (f1, Ok false))
    end.
