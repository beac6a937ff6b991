(** poppy/src/bloom/v2.rs: poppy's own filter. *)
From Verif Require Export M_V1.
Open Scope N_scope.

(** v2.rs:125-127. *)
Definition BUCKET_SIZE : usize := 4096.
Definition BIT_SET_MOD : u64 := BUCKET_SIZE * 8.
Notation bucket := (list N) (only parsing).
Definition bucket_new : bucket := bs_new BUCKET_SIZE.
Definition bucket_bit_size : u64 := BUCKET_SIZE * 8.

(** v2.rs:131-155. *)
Record v2 := {
  v2_flags : flags;
  v2_index_cache : bitset;
  v2_n_buckets : u64;
  v2_cache_byte_size : u64;
  v2_capacity : u64;
  v2_fpp : f64_bits;
  v2_n_hash_buck : u64;
  v2_count : u64;
  v2_buckets : list bucket;
  v2_data : list byte
}.

(** Field updates used by the mutating methods. *)
Definition v2_upd (f : v2) (cache : bitset) (buckets : list bucket) (count : u64) : v2 :=
  {| v2_flags := v2_flags f; v2_index_cache := cache; v2_n_buckets := v2_n_buckets f;
     v2_cache_byte_size := v2_cache_byte_size f; v2_capacity := v2_capacity f; v2_fpp := v2_fpp f;
     v2_n_hash_buck := v2_n_hash_buck f; v2_count := count; v2_buckets := buckets; v2_data := v2_data f |}.
(** [b.data = data] (public field, v2.rs:154). *)
Definition v2_set_data (f : v2) (d : list byte) : v2 :=
  {| v2_flags := v2_flags f; v2_index_cache := v2_index_cache f; v2_n_buckets := v2_n_buckets f;
     v2_cache_byte_size := v2_cache_byte_size f; v2_capacity := v2_capacity f; v2_fpp := v2_fpp f;
     v2_n_hash_buck := v2_n_hash_buck f; v2_count := v2_count f; v2_buckets := v2_buckets f; v2_data := d |}.

(** v2.rs:184-250 [from_reader_with_flags]. *)
Definition v2_from_reader_with_flags (pr : profile) (r : reader) (fl : flags) (partial : bool) : outcome v2 :=
  let? (capacity, r) := read_le_u64 r in
  let? (fpp, r) := read_le_f64 r in
  if negb (fpp_in_range fpp) then Err (WrongFpp fpp)
  else
    let? (n_hash_buck, r) := read_le_u64 r in
    let? (count, r) := read_le_u64 r in
    let? (cache_bit_size, r) := read_le_u64 r in
    let cache_byte_size := byte_cap_from_bit_cap cache_bit_size in
    let? (index_cache, r) :=
      if partial then
        let? r := seek_relative (as_i64 cache_byte_size) r in
        let? ic := bs_with_bit_capacity 0 in Ok (ic, r)
      else
        let? ic := bs_with_bit_capacity cache_bit_size in
        let? (b, r) := read_exact (len ic) r in Ok (b, r)
    in
    let? (n_buckets, r) := read_le_u64 r in
    let? (buckets, r) :=
      if partial then
        let? off := checked_mul pr n_buckets BUCKET_SIZE in
        let? r := seek_relative (as_i64 off) r in Ok ([], r)
      else
        let? _ := vec_of BUCKET_SIZE bucket_new n_buckets in
        read_many (N.to_nat n_buckets) BUCKET_SIZE r
    in
    let data := read_to_end r in
    Ok {| v2_flags := fl; v2_index_cache := index_cache; v2_n_buckets := n_buckets;
          v2_cache_byte_size := cache_byte_size; v2_capacity := capacity; v2_fpp := fpp;
          v2_n_hash_buck := n_hash_buck; v2_count := count; v2_buckets := buckets; v2_data := data |}.

(** v2.rs:170-182 [_from_reader], 165-168 [from_reader]. *)
Definition v2_from_reader_partial (pr : profile) (content : list byte) (partial : bool) : outcome v2 :=
  let? (fl, r) := read_flags (reader_of content) in
  if negb (fl_version fl =? 2) then Err (InvalidVersion (fl_version fl))
  else v2_from_reader_with_flags pr r fl partial.
Definition v2_from_reader (pr : profile) (content : list byte) : outcome v2 :=
  v2_from_reader_partial pr content false.

(** v2.rs:252-279 [write]: the successive write_all calls. *)
Definition v2_write_calls (f : v2) : list (list byte) :=
  [flags_to_bytes (v2_flags f); le_bytes 8 (v2_capacity f); le_bytes 8 (v2_fpp f);
   le_bytes 8 (v2_n_hash_buck f); le_bytes 8 (v2_count f);
   le_bytes 8 (bs_bit_len (v2_index_cache f)); v2_index_cache f; le_bytes 8 (len (v2_buckets f))]
  ++ v2_buckets f ++ [v2_data f].
(** What an unfailing writer receives. *)
Definition v2_write (f : v2) : list byte := concat (v2_write_calls f).

(** v2.rs:303-304 and 309-310: ceil(ln(2.0) * estimate_p(capacity, cache_bit_size) * bits_per_entry) as u64. *)
Definition v2_cached_n_hash (L : libm) (capacity cache_bit_size : u64) (bits_per_entry : spec_float) : u64 :=
  f_to_u64 (f_ceil (f_mul (f_mul (ln2 L) (bu_estimate_p L capacity cache_bit_size)) bits_per_entry)).

(** v2.rs:281-329 [make]. *)
Definition v2_make (pr : profile) (L : libm) (capacity : u64) (fpp : f64_bits) (opt : optlevel) : outcome v2 :=
  if negb (fpp_in_range fpp) then Err (WrongFpp fpp)
  else
    let bucket_cap := bu_cap_from_bit_size L bucket_bit_size fpp in
    let n_bucket := f_to_u64 (f_ceil (f_div (f_of_u64 capacity) (f_of_u64 bucket_cap))) in
    let n_hash_buck := f_to_u64 (f_ceil (f_of_u64 (bu_k L bucket_bit_size bucket_cap))) in
    let bits_per_entry := f_round (f_div (f_of_u64 bucket_bit_size) (f_of_u64 bucket_cap)) in
    let? (cache_bit_size, n_bucket, n_hash_buck) :=
      match opt with
      | ONone | OSpace => Ok (0, n_bucket, n_hash_buck)
      | OSpeed =>
        let? cache_bit_size := next_power_of_two pr capacity in
        let? n_bucket := next_power_of_two pr n_bucket in
        Ok (cache_bit_size, n_bucket, v2_cached_n_hash L capacity cache_bit_size bits_per_entry)
      | OBest =>
        let? cache_bit_size := next_power_of_two pr capacity in
        Ok (cache_bit_size, n_bucket, v2_cached_n_hash L capacity cache_bit_size bits_per_entry)
      end in
    let? index_cache := bs_with_bit_capacity cache_bit_size in
    let? buckets := vec_of BUCKET_SIZE bucket_new n_bucket in
    Ok {| v2_flags := flags_with_opt (flags_new 2) opt; v2_index_cache := index_cache;
          v2_n_buckets := n_bucket; v2_cache_byte_size := bs_byte_len index_cache; v2_capacity := capacity;
          v2_fpp := fpp; v2_n_hash_buck := n_hash_buck; v2_count := 0; v2_buckets := buckets; v2_data := [] |}.

(** v2.rs:331-333 [with_capacity]. *)
Definition v2_with_capacity (pr : profile) (L : libm) (cap : u64) (proba : f64_bits) : outcome v2 :=
  v2_make pr L cap proba ONone.

(** v2.rs:350-355 [clear]: the index cache is left as it is. *)
Definition v2_clear (f : v2) : v2 := v2_upd f (v2_index_cache f) (map bs_clear (v2_buckets f)) 0.

(** v2.rs:376-382 and 474-480: bucket selection; [%] by zero panics. *)
Definition v2_ibucket (f : v2) (h : u64) : outcome u64 :=
  if is_power_of_two (len (v2_buckets f)) then Ok (N.land h (len (v2_buckets f) - 1))
  else if len (v2_buckets f) =? 0 then Panic
  else Ok (h mod len (v2_buckets f)).

(** v2.rs:391-399, the loop of [insert_iter]. *)
Fixpoint v2_insert_loop (pr : profile) (reached_cap : bool) (b : bucket) (new : bool) (idxs : list u64)
  : bucket * outcome bool :=
  match idxs with
  | [] => (b, Ok new)
  | ibit :: r =>
    match (if reached_cap then bs_get b ibit else Ok true) with
    | Err e => (b, Err e)
    | Panic => (b, Panic)
    | Ok false => (b, Err TooManyEntries)
    | Ok true =>
      match bs_set b ibit with
      | (b', Err e) => (b', Err e)
      | (b', Panic) => (b', Panic)
      | (b', Ok old) =>
        let new' := if old then new else true in
        match pr with
        | Release => v2_insert_loop pr reached_cap b' new' r
        | Debug =>                               (* debug_assert!(bucket.get_nth_bit(ibit)) *)
          match bs_get b' ibit with
          | Ok true => v2_insert_loop pr reached_cap b' new' r
          | _ => (b', Panic)
          end
        end
      end
    end
  end.

(** v2.rs:406-407 and 469: bit of the index cache used for bucket hash [h]. *)
Definition v2_cache_index (f : v2) (h : u64) : usize := N.land h (bs_bit_len (v2_index_cache f) - 1).

(** v2.rs:357-411 [insert_iter]. *)
Definition v2_insert_iter (pr : profile) (wy : hasher) (f : v2) (it : index_iter) : v2 * outcome bool :=
  if negb (it_is_init it) then (f, Err UninitIter)
  else
    let it := it_set_count it (v2_n_hash_buck f) in
    if v2_capacity f =? 0 then (f, Err TooManyEntries)
    else
      let h := it_bucket_hash it in
      match v2_ibucket f h with
      | Err e => (f, Err e)
      | Panic => (f, Panic)
      | Ok ibucket =>
        match getN (v2_buckets f) ibucket with
        | None => (f, Panic)                     (* expect("ibucket out of bound") *)
        | Some b =>
          let reached_cap := v2_count f =? v2_capacity f in
          let '(b', r) := v2_insert_loop pr reached_cap b false (it_list wy BIT_SET_MOD it) in
          let buckets := setN (v2_buckets f) ibucket b' in
          let f1 := v2_upd f (v2_index_cache f) buckets (v2_count f) in
          match r with
          | Err e => (f1, Err e)
          | Panic => (f1, Panic)
          | Ok new =>
            match (if new then checked_add pr (v2_count f) 1 else Ok (v2_count f)) with
            | Err e => (f1, Err e)
            | Panic => (f1, Panic)
            | Ok count =>
              if bs_is_empty (v2_index_cache f) then (v2_upd f (v2_index_cache f) buckets count, Ok new)
              else
                match bs_set (v2_index_cache f) (v2_cache_index f h) with
                | (cache, Ok _) => (v2_upd f cache buckets count, Ok new)
                | (cache, Err e) => (v2_upd f cache buckets count, Err e)
                | (cache, Panic) => (v2_upd f cache buckets count, Panic)
                end
            end
          end
        end
      end.

(** v2.rs:514-519 [build_index_iter]. *)
Definition v2_build_index_iter (wy : hasher) (k : key) : index_iter := it_init_with_hashable wy it_new k.
(** v2.rs:335-343 [index_iter]. *)
Definition v2_index_iter (f : v2) : index_iter := it_set_count it_new (v2_n_hash_buck f).

(** v2.rs:425-429 [insert], 418-423 [insert_bytes], 413-416 [_insert_bytes_old]. *)
Definition v2_insert (pr : profile) (wy : hasher) (f : v2) (k : key) : v2 * outcome bool :=
  v2_insert_iter pr wy f (v2_build_index_iter wy k).
Definition v2_insert_bytes (pr : profile) (wy : hasher) (f : v2) (d : list byte) : v2 * outcome bool :=
  v2_insert pr wy f (KSlice d).
Definition v2_insert_bytes_old (pr : profile) (wy : hasher) (f : v2) (d : list byte) : v2 * outcome bool :=
  v2_insert_iter pr wy f (it_init_with_slice wy (v2_index_iter f) d).

(** v2.rs:487-491, the loop of [contains_iter]. *)
Fixpoint v2_contains_loop (b : bucket) (idxs : list u64) : outcome bool :=
  match idxs with
  | [] => Ok true
  | ibit :: r => let? x := bs_get b ibit in if x then v2_contains_loop b r else Ok false
  end.

(** v2.rs:431-494 [contains_iter]. *)
Definition v2_contains_iter (wy : hasher) (f : v2) (it : index_iter) : outcome bool :=
  if negb (it_is_init it) then Err UninitIter
  else
    let it := it_set_count it (v2_n_hash_buck f) in
    if v2_capacity f =? 0 then Ok false
    else
      let h := it_bucket_hash it in
      let? hit :=
        if bs_is_empty (v2_index_cache f) then Ok true else bs_get (v2_index_cache f) (v2_cache_index f h) in
      if negb hit then Ok false
      else
        let? ibucket := v2_ibucket f h in
        match getN (v2_buckets f) ibucket with
        | None => Panic
        | Some b => v2_contains_loop b (it_list wy BIT_SET_MOD it)
        end.

(** Result::unwrap. *)
Definition unwrap {A} (x : outcome A) : outcome A := match x with Ok a => Ok a | _ => Panic end.

(** v2.rs:508-512 [contains], 503-506 [contains_bytes], 496-501 [_contains_bytes_old]. *)
Definition v2_contains (wy : hasher) (f : v2) (k : key) : outcome bool :=
  unwrap (v2_contains_iter wy f (v2_build_index_iter wy k)).
Definition v2_contains_bytes (wy : hasher) (f : v2) (d : list byte) : outcome bool := v2_contains wy f (KSlice d).
Definition v2_contains_bytes_old (wy : hasher) (f : v2) (d : list byte) : outcome bool :=
  unwrap (v2_contains_iter wy f (it_init_with_slice wy (v2_index_iter f) d)).

(** v2.rs:521-531 [count_ones]/[count_zeros]. *)
Definition v2_count_ones (f : v2) : usize := sumN (map bs_count_ones (v2_buckets f)).
Definition v2_count_zeros (f : v2) : usize := sumN (map bs_count_zeros (v2_buckets f)).

(** v2.rs:533-536 [size_in_bytes]. *)
Definition v2_size_in_bytes (pr : profile) (f : v2) : outcome usize :=
  let? a := checked_mul pr (v2_n_buckets f) BUCKET_SIZE in checked_add pr a (v2_cache_byte_size f).

(** v2.rs:548-552 [is_full], 589-595 [count_estimate]. *)
Definition v2_count_estimate (f : v2) : u64 := v2_count f.
Definition v2_is_full (f : v2) : bool := v2_count_estimate f =? v2_capacity f.

(** v2.rs:597-605 [has_same_params]. *)
Definition v2_has_same_params (a b : v2) : bool :=
  flags_eqb (v2_flags a) (v2_flags b) && (v2_capacity a =? v2_capacity b)
  && (bs_byte_len (v2_index_cache a) =? bs_byte_len (v2_index_cache b))
  && fpp_eqb (v2_fpp a) (v2_fpp b) && (v2_n_hash_buck a =? v2_n_hash_buck b)
  && (len (v2_buckets a) =? len (v2_buckets b)).

(** A function on pairs of buckets applied at each i in 0..self.buckets.len() (v2.rs:563-571, 621, 641). *)
Fixpoint zip_outcome {A B C} (g : A -> B -> outcome C) (a : list A) (b : list B) : outcome (list C) :=
  match a, b with
  | [], _ => Ok []
  | x :: a', y :: b' => let? c := g x y in let? r := zip_outcome g a' b' in Ok (c :: r)
  | _ :: _, [] => Panic
  end.

(** v2.rs:554-572 [count_common_entries]. *)
Definition v2_count_common_entries (pr : profile) (L : libm) (a b : v2) : outcome usize :=
  if negb (v2_has_same_params a b) then Err Merge
  else
    let? l := zip_outcome (fun b1 b2 => let? c := arr_common b1 b2 in
                                        Ok (estimate_count L bucket_bit_size c (v2_n_hash_buck a)))
                          (v2_buckets a) (v2_buckets b) in
    checked_sum pr l.

(** v2.rs:574-587 [update_count]. *)
Definition v2_update_count (pr : profile) (L : libm) (f : v2) : outcome v2 :=
  let? c := checked_sum pr (map (fun b => estimate_count L bucket_bit_size (bs_count_ones b) (v2_n_hash_buck f))
                                (v2_buckets f)) in
  Ok (v2_upd f (v2_index_cache f) (v2_buckets f) c).

(** v2.rs:613-625 [union_merge] and 633-645 [intersection_merge], which differ in the two bit set operations only.
    [vec_op] is VecBitSet::union/intersection, [arr_op] BitSet::union/intersection. *)
Definition v2_merge_with (vec_op arr_op : bitset -> bitset -> outcome bitset)
  (pr : profile) (L : libm) (a b : v2) : v2 * outcome unit :=
  if negb (v2_has_same_params a b) then (a, Err Merge)
  else
    match vec_op (v2_index_cache a) (v2_index_cache b) with
    | Err e => (a, Err e)
    | Panic => (a, Panic)
    | Ok cache =>
      let a1 := v2_upd a cache (v2_buckets a) (v2_count a) in
      match zip_outcome arr_op (v2_buckets a) (v2_buckets b) with
      | Err e => (a1, Err e)
      | Panic => (a1, Panic)
      | Ok buckets =>
        let a2 := v2_upd a cache buckets (v2_count a) in
        match v2_update_count pr L a2 with
        | Ok a3 => (a3, Ok tt)
        | Err e => (a2, Err e)
        | Panic => (a2, Panic)
        end
      end
    end.
Definition v2_union_merge := v2_merge_with vec_union arr_union.
Definition v2_intersection_merge := v2_merge_with vec_inter arr_inter.

(** v2.rs:607-611 [union], 627-631 [intersection] (consume both operands). *)
Definition v2_union (pr : profile) (L : libm) (a b : v2) : outcome v2 :=
  let '(a', r) := v2_union_merge pr L a b in let? _ := r in Ok a'.
Definition v2_intersection (pr : profile) (L : libm) (a b : v2) : outcome v2 :=
  let '(a', r) := v2_intersection_merge pr L a b in let? _ := r in Ok a'.
