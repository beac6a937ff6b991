{"id": "C01", "title": "No false negatives (v2)", "statement": "Once an insert of a key has returned Ok on a v2 filter, contains on that key answers true, and keeps answering true through any further inserts (succeeding or failing), unions with other filters, intersections with filters that also hold the key, data attachment, and save/reload, until the filter is cleared.", "quantifier": "every hash function, every starting filter (created or loaded from any file), every key, every finite history of API calls including trees of merged filters", "why_tests_cant": "a test samples a few keys and histories; the claim ranges over all histories, keys and hash functions", "anchors": ["poppy/src/bloom/v2.rs:insert_iter", "poppy/src/bloom/v2.rs:contains_iter", "poppy/src/bloom/v2.rs:union_merge", "poppy/src/bloom/v2.rs:intersection_merge", "poppy/src/bloom/v2.rs:write", "poppy/src/bloom/v2.rs:from_reader"]}
{"id": "C02", "title": "No false negatives (v1)", "statement": "Once insert_bytes of a value has returned Ok on a v1 (DCSO) filter, contains_bytes on that value answers true, and keeps doing so through further inserts, unions and save/reload until clear, for every capacity and fpp that with_capacity accepts.", "quantifier": "every accepted capacity/fpp, every value, every finite history of API calls", "why_tests_cant": "the failure region (parameters for which the computed bit size is 0) is not hit by any existing test; the good region is infinite", "anchors": ["poppy/src/bloom/v1.rs:insert_bytes", "poppy/src/bloom/v1.rs:contains_bytes", "poppy/src/bloom/v1.rs:with_capacity", "poppy/src/bloom/utils.rs:bit_size"]}
{"id": "C03", "title": "Exact membership semantics", "statement": "contains answers true exactly when every bit position of the queried key was set by some earlier successful insert into the filter (or into a filter merged into it): a filter holds no phantom bits and a positive answer is always explained by inserted keys.", "quantifier": "every history of inserts/clears/unions/intersections/reloads, every queried key, every hash function", "why_tests_cant": "tests can observe some true/false answers but not that the bit content is exactly the union of inserted keys' positions for all histories", "anchors": ["poppy/src/bloom/v2.rs:insert_iter", "poppy/src/bloom/v2.rs:contains_iter", "poppy/src/bloom/v1.rs:insert_bytes", "poppy/src/bloom/v1.rs:contains_bytes", "poppy/src/bloom/v2.rs:IndexIterator", "poppy/src/bloom/v1.rs:Fingerprint"]}
{"id": "C04", "title": "A fresh filter contains nothing", "statement": "A newly created filter answers false to every membership query and has a count estimate of 0.", "quantifier": "every accepted capacity, fpp, version, optimisation level, every key", "why_tests_cant": "unbounded parameter and key space", "anchors": ["poppy/src/bloom/v2.rs:make", "poppy/src/bloom/v1.rs:with_capacity", "poppy/src/bloom/v2.rs:contains_iter"]}
{"id": "C05", "title": "clear empties the filter", "statement": "After clear, every membership query answers false, count_estimate is 0, and capacity, fpp, geometry and attached data are unchanged; the filter behaves like a newly created one.", "quantifier": "every reachable filter, every key", "why_tests_cant": "the failing region (cache-optimised filters with zero in-bucket hashes) needs particular parameters no test uses", "anchors": ["poppy/src/bloom/v2.rs:clear", "poppy/src/bloom/v1.rs:clear", "poppy/src/bloom.rs:clear"]}
{"id": "C06", "title": "Meaning of insert's boolean", "statement": "insert returns Ok(true) exactly when the value was not reported as contained just before the call, and Ok(false) exactly when it was.", "quantifier": "every reachable filter, every key", "why_tests_cant": "collision cases are astronomically rare in tests", "anchors": ["poppy/src/bloom/v2.rs:insert_iter", "poppy/src/bloom/v1.rs:insert_bytes"]}
{"id": "C07", "title": "Insert is idempotent", "statement": "Re-inserting a value whose insertion already succeeded returns Ok(false) and leaves every observable of the filter (bits, cache, count, serialised bytes) unchanged, even when the filter is full.", "quantifier": "every filter and key", "why_tests_cant": "ranges over all filter states, including full ones", "anchors": ["poppy/src/bloom/v2.rs:insert_iter", "poppy/src/bloom/v1.rs:insert_bytes"]}
{"id": "C08", "title": "count_estimate counts the new insertions", "statement": "On a filter that has only seen inserts and clears since creation, count_estimate equals the number of insert calls that returned Ok(true) since creation or the last clear.", "quantifier": "every sequence of insert/clear calls", "why_tests_cant": "all sequences of operations", "anchors": ["poppy/src/bloom/v2.rs:insert_iter", "poppy/src/bloom/v2.rs:count_estimate", "poppy/src/bloom/v1.rs:insert_bytes"]}
{"id": "C09", "title": "Capacity is never exceeded and only blocks new entries", "statement": "On a filter built by inserts, count_estimate never exceeds capacity; below capacity no insert fails with TooManyEntries; at capacity an insert fails with TooManyEntries exactly when it would set a new bit.", "quantifier": "every insert sequence on every created filter", "why_tests_cant": "all operation sequences and all capacities", "anchors": ["poppy/src/bloom/v2.rs:insert_iter", "poppy/src/bloom/v1.rs:insert_bytes", "poppy/src/bloom/v2.rs:is_full"]}
{"id": "C10", "title": "Failed insert changes nothing", "statement": "An insert that returns an error leaves the filter exactly as it was: no bit, no cache entry, no count is modified.", "quantifier": "every filter state, every key", "why_tests_cant": "a partially applied insert would only show at particular overlapping bit patterns", "anchors": ["poppy/src/bloom/v2.rs:insert_iter", "poppy/src/bloom/v1.rs:insert_bytes"]}
{"id": "C11", "title": "Capacity remains enforced after merging", "statement": "After a union, a filter whose count estimate has reached or passed its capacity reports full and refuses new entries.", "quantifier": "every pair of mergeable filters, every key", "why_tests_cant": "requires a union whose float estimate lands beyond capacity", "anchors": ["poppy/src/bloom/v2.rs:union_merge", "poppy/src/bloom/v2.rs:insert_iter", "poppy/src/bloom/v2.rs:is_full", "poppy/src/bloom/v1.rs:insert_bytes"]}
{"id": "C12", "title": "Union contains both sides", "statement": "After a successful union_merge the filter contains every key either operand contained; its bit content is exactly the bitwise OR; the right operand is not modified; union is commutative, associative and idempotent on content, and inserting A then B gives the same bits as union of a filter with A and a filter with B.", "quantifier": "every pair/triple of compatible filters, every key", "why_tests_cant": "unbounded filter contents", "anchors": ["poppy/src/bloom/v2.rs:union_merge", "poppy/src/bloom/v2.rs:union", "poppy/src/bloom/v1.rs:union_merge", "poppy/src/bloom.rs:union_merge", "poppy/src/bitset/array.rs:union", "poppy/src/bitset/vec.rs:union"]}
{"id": "C13", "title": "Intersection is exact on queries", "statement": "After a successful v2 intersection, contains(k) is true exactly when both operands contained k; the result's bits are the bitwise AND.", "quantifier": "every pair of compatible filters, every key", "why_tests_cant": "unbounded filter contents", "anchors": ["poppy/src/bloom/v2.rs:intersection", "poppy/src/bloom/v2.rs:intersection_merge", "poppy/src/bitset/array.rs:intersection"]}
{"id": "C14", "title": "Incompatible merges are refused without effect", "statement": "union_merge, intersection_merge and count_common_entries return an error exactly when the two filters' parameters differ (version, flags, capacity, fpp, hash count, geometry), and then leave the filter unchanged; they never panic on created or loaded filters of equal parameters because of length mismatch.", "quantifier": "every pair of filters", "why_tests_cant": "all pairs of parameter sets", "anchors": ["poppy/src/bloom.rs:union_merge", "poppy/src/bloom/v2.rs:has_same_params", "poppy/src/bloom/v1.rs:has_same_params", "poppy/src/bloom/v2.rs:union_merge"]}
{"id": "C15", "title": "has_same_params is an equivalence", "statement": "has_same_params is reflexive, symmetric and transitive, so mergeability partitions filters.", "quantifier": "all filters, including ones loaded from files", "why_tests_cant": "NaN-like corner cases in loaded headers", "anchors": ["poppy/src/bloom.rs:has_same_params", "poppy/src/bloom/v1.rs:has_same_params", "poppy/src/bloom/v2.rs:has_same_params"]}
{"id": "C16", "title": "Save/reload round trip", "statement": "Reading back what write produced yields a filter equal in every observable (membership of every key, bits, count, capacity, fpp, optimisation level, attached data, sizes), for v1 and v2, through both the version-specific and the generic reader.", "quantifier": "every reachable filter with any attached data", "why_tests_cant": "infinite state space", "anchors": ["poppy/src/bloom/v2.rs:write", "poppy/src/bloom/v2.rs:from_reader_with_flags", "poppy/src/bloom/v1.rs:write", "poppy/src/bloom/v1.rs:from_reader_with_flags", "poppy/src/bloom.rs:from_reader"]}
{"id": "C17", "title": "Reload/save byte identity", "statement": "Writing a filter just loaded from a file whose reserved header bytes are zero reproduces the file byte for byte.", "quantifier": "every byte string accepted by from_reader", "why_tests_cant": "all files", "anchors": ["poppy/src/bloom/v2.rs:write", "poppy/src/bloom/v1.rs:write", "poppy/src/bloom.rs:Flags"]}
{"id": "C18", "title": "Trailing bytes are the attached data", "statement": "Appending bytes to a serialised filter changes only the attached data: the loaded filter is the same with the extra bytes appended to data.", "quantifier": "every serialised filter, every suffix", "why_tests_cant": "all suffixes", "anchors": ["poppy/src/bloom/v2.rs:from_reader_with_flags", "poppy/src/bloom/v1.rs:from_reader_with_flags"]}
{"id": "C19", "title": "Truncation is detected", "statement": "Every proper prefix of a serialised filter that cuts inside the header, cache or bit content is rejected with an error by from_reader (never accepted, never a panic); a cut inside the attached data yields the same filter with truncated data.", "quantifier": "every serialised filter, every cut point", "why_tests_cant": "all crash/truncation points", "anchors": ["poppy/src/bloom/v2.rs:from_reader_with_flags", "poppy/src/bloom/v1.rs:from_reader_with_flags", "poppy/src/utils.rs:read_le_u64"]}
{"id": "C20", "title": "Header validation", "statement": "from_reader accepts only version 1 or 2 and optimisation byte 0..3; v2 additionally rejects any fpp outside [MIN_POSITIVE, 1] including NaN; version-specific readers reject the other version.", "quantifier": "every byte string", "why_tests_cant": "all 2^64 headers", "anchors": ["poppy/src/bloom.rs:from_reader", "poppy/src/bloom.rs:Flags::from_bytes", "poppy/src/bloom.rs:OptLevel::try_from", "poppy/src/bloom/v2.rs:_from_reader", "poppy/src/bloom/v1.rs:_from_reader"]}
{"id": "C21", "title": "Malformed input yields Err, not a crash", "statement": "from_reader on arbitrary bytes returns Ok or Err and never panics, and the operations on a successfully loaded filter never panic.", "quantifier": "every byte string", "why_tests_cant": "adversarial files", "anchors": ["poppy/src/bloom.rs:from_reader", "poppy/src/bloom/v2.rs:from_reader_with_flags", "poppy/src/bloom/v2.rs:contains_iter", "poppy/src/bloom/v1.rs:insert_bytes"]}
{"id": "C22", "title": "Partial read reports the same metadata", "statement": "For every file that from_reader accepts, partial_from_reader also succeeds and reports the same version, capacity, fpp, count estimate, size_in_bytes and attached data.", "quantifier": "every byte string accepted by the full reader", "why_tests_cant": "all files", "anchors": ["poppy/src/bloom.rs:partial_from_reader", "poppy/src/bloom/v2.rs:from_reader_with_flags", "poppy/src/bloom/v1.rs:from_reader_with_flags", "poppy/src/bloom/v2.rs:size_in_bytes"]}
{"id": "C23", "title": "No panics on created filters", "statement": "On any filter obtained from a constructor (and histories of inserts, clears, reloads of it) insert, contains, clear, write and the accessors never panic: no index out of bounds, no division by zero, no failed unwrap, no debug assertion, no arithmetic overflow.", "quantifier": "every accepted parameter set whose bucket vector fits the address space, every history, debug and release builds", "why_tests_cant": "all geometry values from floating-point sizing", "anchors": ["poppy/src/bloom/v2.rs:insert_iter", "poppy/src/bloom/v2.rs:contains_iter", "poppy/src/bloom/v2.rs:contains", "poppy/src/bloom/v1.rs:insert_bytes", "poppy/src/bloom/v1.rs:get_nth_bit"]}
{"id": "C24", "title": "Byte-like key types are interchangeable", "statement": "For v2, inserting a key as &[u8], Vec<u8>, &str, String or through insert_bytes makes it found through any of the other forms, and the old slice-based path computes the same positions.", "quantifier": "all byte strings", "why_tests_cant": "all inputs", "anchors": ["poppy/src/hash.rs:PoppyHash", "poppy/src/bloom/v2.rs:init_with_slice", "poppy/src/bloom/v2.rs:init_with_hashable", "poppy/src/bloom/v2.rs:insert_bytes"]}
{"id": "C25", "title": "Short keys: no hash collisions except zero padding", "statement": "Two byte keys of at most 8 bytes get the same v2 hash exactly when they are equal after right-padding with zero bytes; in particular keys of equal length never collide, and a key followed by a zero byte (total at most 8) is indistinguishable from the key.", "quantifier": "all pairs of byte strings of length <= 8", "why_tests_cant": "2^128 pairs", "anchors": ["poppy/src/hash.rs:PoppyHash for &[u8]"]}
{"id": "C26", "title": "Prepared iterators equal direct calls", "statement": "insert_iter/contains_iter on an iterator from build_index_iter behave exactly as insert/contains on the data, the same prepared iterator can be reused on any number of filters with different parameters, and an iterator that was not prepared is refused with UninitIter without modifying the filter.", "quantifier": "all keys, all filters", "why_tests_cant": "all filters and keys", "anchors": ["poppy/src/bloom/v2.rs:build_index_iter", "poppy/src/bloom/v2.rs:insert_iter", "poppy/src/bloom/v2.rs:contains_iter", "poppy/src/bloom/v2.rs:is_init"]}
{"id": "C27", "title": "FNV-1 conformance and streaming", "statement": "The v1 hasher computes the standard 64-bit FNV-1 of the bytes; writing data in pieces gives the same digest as writing it at once.", "quantifier": "all byte strings, all ways to cut them", "why_tests_cant": "all inputs and chunkings (8-byte chunk boundary in the code)", "anchors": ["poppy/src/hash/fnv.rs:Fnv1Hasher::write"]}
{"id": "C28", "title": "v1 positions follow the DCSO sequence and stay in range", "statement": "For a value with FNV-1 hash x, the v1 filter examines exactly n_hash positions: the i-th, counting from 1, is (h_i mod bit_size) with h_0 = x mod M, h_(i+1) = (h_i * G mod 2^64) mod M; every position is below bit_size and inside the bit vector.", "quantifier": "all values, all filters", "why_tests_cant": "all inputs", "anchors": ["poppy/src/bloom/v1.rs:Fingerprint", "poppy/src/bloom/v1.rs:M", "poppy/src/bloom/v1.rs:G"]}
{"id": "C29", "title": "v2 positions follow enhanced double hashing", "statement": "For a key with hash h1 the v2 filter examines exactly n_hash_buck positions of one bucket; the i-th is (h1 + i*h2 + (i^3-i)/6) mod 2^64 mod 32768 with h2 the hash of h1's big-endian bytes; power-of-two and general modulus paths agree.", "quantifier": "all keys, all hash counts", "why_tests_cant": "closed form for every i", "anchors": ["poppy/src/bloom/v2.rs:IndexIterator::next"]}
{"id": "C30", "title": "Bucket scrambling loses no information", "statement": "The bucket hash is a permutation of the 64-bit hash values: distinct key hashes never get equal bucket hashes.", "quantifier": "all pairs of 64-bit values", "why_tests_cant": "2^128 pairs", "anchors": ["poppy/src/bloom/v2.rs:xorshift_star"]}
{"id": "C31", "title": "Bit set set/get laws", "statement": "set_nth_bit returns the previous value of the bit, sets that bit, and changes no other bit; get reads it; out-of-range indexes panic; clear zeroes all bits.", "quantifier": "all bit sets, all index pairs", "why_tests_cant": "all index pairs and contents", "anchors": ["poppy/src/bitset/array.rs:set_nth_bit", "poppy/src/bitset/array.rs:get_nth_bit", "poppy/src/bitset/vec.rs:set_nth_bit", "poppy/src/bitset/vec.rs:get_nth_bit"]}
{"id": "C32", "title": "unset_nth_bit clears the bit", "statement": "unset_nth_bit(i) makes get_nth_bit(i) false, returns the previous value and leaves the other bits unchanged.", "quantifier": "all bit sets and indexes", "why_tests_cant": "the function is never called by tests", "anchors": ["poppy/src/bitset/array.rs:unset_nth_bit", "poppy/src/bitset/vec.rs:unset_nth_bit"]}
{"id": "C33", "title": "Bit counting", "statement": "count_ones + count_zeros equals the number of bits of the filter; count_ones counts exactly the set positions; ones in common of two sets counts exactly positions set in both.", "quantifier": "all filters", "why_tests_cant": "all contents", "anchors": ["poppy/src/bitset/array.rs:count_ones", "poppy/src/bitset/array.rs:count_zeros", "poppy/src/bitset/vec.rs:count_ones", "poppy/src/bloom/v2.rs:count_ones", "poppy/src/bloom/v1.rs:count_ones", "poppy/src/bloom/v1.rs:count_zeros"]}
{"id": "C34", "title": "size_in_bytes is the storage size", "statement": "size_in_bytes equals the number of bytes of bit content (and cache) the filter stores and serialises.", "quantifier": "all created or loaded filters", "why_tests_cant": "all parameter sets", "anchors": ["poppy/src/bloom/v2.rs:size_in_bytes", "poppy/src/bloom/v1.rs:size_in_bytes", "poppy/src/bloom/v1.rs:size_in_u64"]}
{"id": "C35", "title": "v2 geometry", "statement": "A v2 filter of capacity n has ceil(n / c) buckets of 4096 bytes, c being the per-bucket capacity for its fpp; level speed rounds the bucket count to a power of two; levels speed and best carry an index cache whose bit count is a power of two, at least 8 and at least n; other levels carry none.", "quantifier": "every accepted capacity below 2^53 and every fpp", "why_tests_cant": "floating-point ceil/division rounding over all 2^53 values", "anchors": ["poppy/src/bloom/v2.rs:make", "poppy/src/bloom/utils.rs:cap_from_bit_size", "poppy/src/bitset/vec.rs:byte_cap_from_bit_cap"]}
{"id": "C36", "title": "Sizing meets the theoretical optimum", "statement": "The number of bits allocated by a v2 filter is at least capacity * ln(1/fpp) / ln(2)^2 up to floating-point relative error.", "quantifier": "every accepted capacity and fpp", "why_tests_cant": "continuous parameter space", "anchors": ["poppy/src/bloom/v2.rs:make", "poppy/src/bloom/utils.rs:cap_from_bit_size"]}
{"id": "C37", "title": "fpp acceptance domain", "statement": "Constructors and the v2 reader accept an fpp exactly when 0 < fpp <= 1 (as the error message says), and reject NaN, infinities, zero and negatives with WrongFpp.", "quantifier": "all 2^64 f64 bit patterns", "why_tests_cant": "2^64 values including subnormals and NaNs", "anchors": ["poppy/src/bloom/v2.rs:make", "poppy/src/bloom/v1.rs:with_capacity", "poppy/src/bloom/v2.rs:from_reader_with_flags", "poppy/src/bloom.rs:Error::WrongFpp"]}
{"id": "C38", "title": "Insertion order does not matter", "statement": "Inserting the same values in any order gives the same bits, cache and membership answers.", "quantifier": "all permutations of all value lists, as long as no insert fails", "why_tests_cant": "n! orders", "anchors": ["poppy/src/bloom/v2.rs:insert_iter", "poppy/src/bloom/v1.rs:insert_bytes"]}
{"id": "C39", "title": "fill inserts a prefix", "statement": "fill inserts the entries in order and stops at the first error; on Ok every entry is contained; on error the filter equals the result of inserting exactly the entries before the failing one.", "quantifier": "all datasets and filters", "why_tests_cant": "all datasets", "anchors": ["poppy/src/bloom.rs:fill"]}
{"id": "C40", "title": "Parallel insertion loses nothing", "statement": "If parallel insertion of files returns Ok, the result contains every line of every file and everything the original filter contained; its bits equal those of sequential insertion whenever that succeeds, whatever the number of jobs.", "quantifier": "all file lists, contents, job counts, filters", "why_tests_cant": "all partitions", "anchors": ["poppy/src/bin/poppy.rs:parallel_insert", "poppy/src/bin/poppy.rs:process_file"]}
{"id": "C41", "title": "Parallel insertion is schedule independent", "statement": "The filter produced by parallel insertion is the same for every interleaving of the worker threads.", "quantifier": "all schedules", "why_tests_cant": "exponentially many interleavings", "anchors": ["poppy/src/bin/poppy.rs:parallel_insert"]}
{"id": "C42", "title": "Parallel insertion enforces capacity", "statement": "Inserting files in parallel fails with TooManyEntries whenever inserting the same lines sequentially would.", "quantifier": "all file lists and job counts", "why_tests_cant": "depends on how lines fall into batches", "anchors": ["poppy/src/bin/poppy.rs:parallel_insert", "poppy/src/bloom/v2.rs:union_merge"]}
{"id": "C43", "title": "Job batching", "statement": "Batching splits the file list into consecutive non-empty batches that together are exactly the list, and uses at most the requested number of jobs.", "quantifier": "all list lengths and job counts", "why_tests_cant": "all (n, jobs) pairs", "anchors": ["poppy/src/bin/poppy.rs:parallel_insert", "poppy/src/bin/poppy.rs:count_lines_parallel", "poppy/src/bin/poppy.rs:optimal_jobs"]}
{"id": "C44", "title": "check works for every documented job count", "statement": "The check command works for every value of --jobs, 0 meaning 'optimal number'.", "quantifier": "all job counts", "why_tests_cant": "jobs=0 is documented in the README but untested", "anchors": ["poppy/src/bin/poppy.rs:main (Command::Check)", "poppy/src/bin/poppy.rs:optimal_jobs"]}
{"id": "C45", "title": "check prints the right lines", "statement": "check prints exactly the input lines the filter contains (or, with --verify, exactly those it does not contain, marked NOK), each as often as it occurs and in file order per batch, for any interleaving of threads; with --silent it prints nothing.", "quantifier": "all inputs, all schedules, all flag combinations", "why_tests_cant": "all interleavings and flags", "anchors": ["poppy/src/bin/poppy.rs:main (Command::Check)"]}
{"id": "C46", "title": "create from a dataset never overflows", "statement": "Creating a filter from dataset files never fails with TooManyEntries, the capacity is the number of lines, and the written filter contains every line.", "quantifier": "all datasets of valid UTF-8 text files, all job counts", "why_tests_cant": "all datasets", "anchors": ["poppy/src/bin/poppy.rs:main (Command::Create)", "poppy/src/bin/poppy.rs:count_lines_parallel"]}
{"id": "C47", "title": "Failing commands do not touch the filter file", "statement": "When create or insert fails before saving (unreadable input, invalid text, filter full, bad parameters, existing output that is not a filter), the filter file is left unchanged.", "quantifier": "all argument combinations and file systems", "why_tests_cant": "all failure points", "anchors": ["poppy/src/bin/poppy.rs:main (Command::Create)", "poppy/src/bin/poppy.rs:main (Command::Insert)"]}
{"id": "C48", "title": "Saving is crash safe", "statement": "If the process dies while saving, the file still holds either the old or the new filter.", "quantifier": "all crash points", "why_tests_cant": "crash points", "anchors": ["poppy/src/bin/poppy.rs:main (Command::Insert)", "poppy/src/bloom/v2.rs:write", "python/src/lib.rs:save"]}
{"id": "C49", "title": "write returning Ok means everything was written", "statement": "If write returns Ok, all bytes of the serialised filter reached the underlying writer; in all cases what reached it is a prefix of the serialised filter.", "quantifier": "all filters, all writers that fail after any number of bytes", "why_tests_cant": "all failure points of the writer", "anchors": ["poppy/src/bloom/v2.rs:write", "poppy/src/bloom/v1.rs:write"]}
{"id": "C50", "title": "Line splitting", "statement": "Entries are the text lines without their LF or CRLF terminator; a last line without terminator counts; an empty file has no entry; joining entries with LF and splitting again gives the same entries when no entry contains LF or ends in CR.", "quantifier": "all byte contents", "why_tests_cant": "all contents", "anchors": ["poppy/src/bin/poppy.rs:process_file", "poppy/src/bin/poppy.rs:count_lines_parallel"]}
{"id": "C51", "title": "ByteSize arithmetic", "statement": "from_bytes keeps the byte count whatever the unit chosen, the unit is the largest among B, KB, MB, GB not exceeding the size, equality and order are those of the byte counts, from_bits(b) is floor(b/8) bytes.", "quantifier": "all sizes", "why_tests_cant": "all usize values", "anchors": ["poppy/src/utils.rs:ByteSize"]}
{"id": "C52", "title": "Python round trip", "statement": "loads(dumps(f)) succeeds and gives an equivalent filter; wrong parameters raise ValueError rather than producing a filter.", "quantifier": "all filters reachable from Python", "why_tests_cant": "all states", "anchors": ["python/src/lib.rs:dumps", "python/src/lib.rs:loads", "python/src/lib.rs:with_params"]}
{"id": "C53", "title": "Version dispatch", "statement": "with_version_capacity_opt gives a v1 filter for 1, a v2 filter for 2 and InvalidVersion for anything else; the generic filter's operations are those of the wrapped version; version() agrees with the first byte written.", "quantifier": "all versions and parameters", "why_tests_cant": "256 versions x all parameters", "anchors": ["poppy/src/bloom.rs:with_version_capacity_opt", "poppy/src/bloom.rs:BloomFilter", "poppy/src/bloom.rs:Params"]}
{"id": "C54", "title": "count_common_entries", "statement": "count_common_entries is symmetric, does not modify the filters, is an error exactly on incompatible parameters, and is 0 for filters with no bit in common.", "quantifier": "all pairs of filters", "why_tests_cant": "all pairs", "anchors": ["poppy/src/bloom/v2.rs:count_common_entries", "poppy/src/bloom/v1.rs:count_common_entries"]}
{"id": "C55", "title": "Merging never overflows", "statement": "union and intersection of compatible filters never panic and never make a later insert panic, in debug or release builds.", "quantifier": "all pairs of compatible filters", "why_tests_cant": "needs saturated buckets, where the logarithm estimate is infinite", "anchors": ["poppy/src/bloom/v2.rs:update_count", "poppy/src/bloom/v2.rs:insert_iter"]}
{"id": "C56", "title": "Attached data is inert", "statement": "The attached data blob never influences membership, counts or mergeability, and no operation other than assigning it changes it; a union keeps the left operand's data.", "quantifier": "all filters, all data", "why_tests_cant": "all contents", "anchors": ["poppy/src/bloom/v2.rs:data", "poppy/src/bloom/v1.rs:data", "poppy/src/bloom.rs:data"]}
{"id": "C57", "title": "The insert command", "statement": "When the insert command succeeds, the file afterwards loads to the filter it loaded to before plus exactly the lines of standard input and of the input files: same version, capacity, probability, data and length, every inserted line reported, every entry reported before still reported, no other file touched. When the lines fit in the capacity, it succeeds.", "quantifier": "all files, all inputs, all numbers of jobs, both build profiles, all hash functions", "why_tests_cant": "all files and all interleavings of batches", "anchors": ["poppy/src/bin/poppy.rs:main", "poppy/src/bin/poppy.rs:parallel_insert"]}
{"id": "C58", "title": "Debug and release builds agree", "statement": "Any program of library calls on filters, and any run of the create, insert, check and show commands, that does not panic in a debug build gives the same answers, errors and files in a release build.", "quantifier": "all programs of calls, all inputs", "why_tests_cant": "two builds over all programs", "anchors": ["poppy/src/bloom.rs", "poppy/src/bloom/v1.rs", "poppy/src/bloom/v2.rs", "poppy/src/bin/poppy.rs"]}
{"id": "C59", "title": "The show command", "statement": "show prints the version, capacity, count, probability, data size and size of the filter in the file, and is an error on files that do not hold a complete filter.", "quantifier": "all files", "why_tests_cant": "all files, in particular damaged ones", "anchors": ["poppy/src/bin/poppy.rs:show_bf_properties", "poppy/src/bloom.rs:partial_from_reader"]}
{"id": "C62", "title": "Files saved from Python", "statement": "After any sequence of saves of reachable filters to any paths, load of a path gives back the last filter saved to it (answers, count, capacity, probability, data), and a path never saved to is unchanged; load of a missing path is an error.", "quantifier": "all sequences of saves, all filters", "why_tests_cant": "all sequences", "anchors": ["python/src/lib.rs:save", "python/src/lib.rs:load"]}
{"id": "C63", "title": "Create or insert, then check", "statement": "After a successful create or insert with some files, check with the same files, with any number of jobs, succeeds, prints every line in some order, and in verify mode prints nothing.", "quantifier": "all files, all numbers of jobs", "why_tests_cant": "all inputs and schedules", "anchors": ["poppy/src/bin/poppy.rs:main"]}
{"id": "C64", "title": "Number of jobs and order of files", "statement": "The filter that create and insert build does not depend on the number of jobs, on the order of the files or on the order in which batches finish.", "quantifier": "all file lists, all numbers of jobs", "why_tests_cant": "all schedules", "anchors": ["poppy/src/bin/poppy.rs:parallel_insert"]}
{"id": "C60", "title": "Statistics counters", "statement": "The counters of Stats are exact for up to 2^53 events of each kind, the total is the number of events, no update panics, and the false positive rate is the correctly rounded fp/(fp+tn), NaN when both are 0.", "quantifier": "all sequences of events", "why_tests_cant": "all sequences; rounding", "anchors": ["poppy/src/utils.rs:Stats"]}
{"id": "C61", "title": "Entries of a benchmark", "statement": "The entries taken by the bench command are lines of standard input in their order, distinct by hash, until the size limit is passed; every line has the hash of some entry when the limit is not passed. The filter made for them accepts all of them and reports all of them.", "quantifier": "all inputs, all hash functions", "why_tests_cant": "all inputs", "anchors": ["poppy/src/bin/poppy.rs:main"]}
{"id": "C65", "title": "Measured rates", "statement": "The rate of a condition is the correctly rounded share of mutated lines that the filter reports, NaN exactly when no line is mutated; lines that are not mutated do not count; a mutated line keeps its length and has every byte xored with its own drawn value.", "quantifier": "all usable filters, all test lines, all draws", "why_tests_cant": "all draws", "anchors": ["poppy/src/bin/poppy.rs:main"]}
{"id": "C66", "title": "Verdict of a benchmark", "statement": "bench fails exactly when the average rate of false positives it observed is above the filter's probability times one plus the tolerance, or when an entry is missing from the filter; it never panics.", "quantifier": "all filters, all draws, all arguments", "why_tests_cant": "needs particular draws; rounding", "anchors": ["poppy/src/bin/poppy.rs:main", "poppy/src/utils.rs:benchmark"]}
{"id": "C67", "title": "The requested false-positive rate", "statement": "A filter without index cache (v1, v2 levels none and space) created for cap entries at probability p and holding at most cap entries reports an absent entry with probability at most p, when the hash spreads the positions and the buckets evenly.", "quantifier": "all capacities, probabilities and numbers of entries", "why_tests_cant": "a rate needs millions of queries per parameter; rounding of the number of hash functions and of the bucket size", "anchors": ["poppy/src/bloom/v2.rs:make", "poppy/src/bloom/v1.rs:with_capacity", "poppy/src/bloom/utils.rs"]}
{"id": "C68", "title": "The requested false-positive rate with an index cache", "statement": "Levels speed and best keep the requested probability, although they use fewer hash functions, because an entry must also be in the index cache.", "quantifier": "all capacities and probabilities", "why_tests_cant": "rates of 1e-7 and below cannot be observed", "anchors": ["poppy/src/bloom/v2.rs:make", "poppy/src/bloom/utils.rs:estimate_p"]}
{"id": "C69", "title": "A v1 filter's own estimate of its rate", "statement": "estimated_p is the false-positive rate expected of the filter as it is: its number of bits, its number of hash functions and its current count.", "quantifier": "all filters built by the library", "why_tests_cant": "a wrong estimate is as plausible a number as a right one; the rates are far below what can be observed", "anchors": ["poppy/src/bloom/v1.rs:estimated_p", "poppy/src/bloom/utils.rs:estimate_p"]}
{"id": "C70", "title": "Buckets and cache bits get equal shares of the hash values", "statement": "Of the 2^64 first hash values, every bucket receives the same number up to one, every cache bit exactly the same number, and at level speed the cache bit of an entry determines its bucket.", "quantifier": "all numbers of buckets, all cache sizes that are powers of two", "why_tests_cant": "2^64 values", "anchors": ["poppy/src/bloom/v2.rs:insert", "poppy/src/bloom/v2.rs:contains", "poppy/src/hash.rs"]}
{"id": "C71", "title": "The bloom! macro", "statement": "bloom!(cap, p, [values]) yields a version 2 filter of capacity cap and probability p containing every value, whenever p is in range and the number of different values is at most cap; a probability out of range panics; it never returns an error value.", "quantifier": "all capacities below 2^53, probabilities, lists of values", "why_tests_cant": "all lists and parameters; repetitions", "anchors": ["poppy/src/bloom.rs:bloom!"]}
{"id": "C72", "title": "Sizes as text", "statement": "A size prints as a number with one decimal followed by its unit, the number being the size in that unit to the nearest tenth, growing with the size; the number is below 1024 except for gigabytes.", "quantifier": "all sizes", "why_tests_cant": "rounding at 2^64 sizes, ties and unit boundaries", "anchors": ["poppy/src/utils.rs:Display for ByteSize", "poppy/src/utils.rs:in_unit", "poppy/src/utils.rs:unit_str"]}
{"id": "C73", "title": "What show prints identifies the filter's parameters", "statement": "Two filters for which show prints the same text have the same version, capacity, count, probability, optimisation level and printed sizes.", "quantifier": "all filters, any injective one-line display of floats", "why_tests_cant": "all pairs of filters", "anchors": ["poppy/src/bin/poppy.rs:show_bf_properties", "poppy/src/bloom.rs:OptLevel"]}
{"id": "C74", "title": "Params", "statement": "Params::new asks for version 2 and no optimisation; each setter changes its field only; converting gives an empty filter with exactly these parameters, through the generic and the version-specific conversion alike, or WrongFpp; a conversion to a version other than the one asked for is refused.", "quantifier": "all parameters", "why_tests_cant": "all combinations of capacity, probability, version, level", "anchors": ["poppy/src/bloom.rs:Params", "poppy/src/bloom/v1.rs:TryFrom<Params>", "poppy/src/bloom/v2.rs:TryFrom<Params>"]}
{"id": "C75", "title": "The bits of a v1 filter as a list", "statement": "bits() of a v1 filter lists exactly its bits in order, bit_size of them, the set ones being the positions of the inserted entries, and never panics.", "quantifier": "all filters built by the library, all positions", "why_tests_cant": "all filters", "anchors": ["poppy/src/bloom/v1.rs:bits"]}
{"id": "C76", "title": "Union and intersection by value", "statement": "union(a, b) and intersection(a, b) fail exactly when the parameters differ and otherwise give a filter with the bits of either, respectively both.", "quantifier": "all pairs of v2 filters", "why_tests_cant": "all pairs of filters", "anchors": ["poppy/src/bloom/v2.rs:union", "poppy/src/bloom/v2.rs:intersection"]}
{"id": "C77", "title": "Number of hash functions with an index cache", "statement": "Levels speed and best use at least one hash function, and between 40% and 63% of the optimal number for the size of a bucket, up to rounding.", "quantifier": "all capacities and probabilities", "why_tests_cant": "all capacities and probabilities; depends on rounding in exp, powf, round and ceil", "anchors": ["poppy/src/bloom/v2.rs:make", "poppy/src/bloom/utils.rs:estimate_p"]}
{"id": "C78", "title": "Independence of the hash functions of a v1 filter", "statement": "The k positions of an entry in a v1 filter are k separate conditions: when the number of bits is a power of two (the case of the test test_show_bug_in_v1), an entry that shares only its first position with a stored one is not accepted because of it.", "quantifier": "all data, all numbers of bits, all numbers of hash functions", "why_tests_cant": "the relation between positions is an arithmetic fact about 2^64 hash values; the repository's test shows only that one measured rate is too high", "anchors": ["poppy/src/bloom/v1.rs:Fingerprint::next", "poppy/src/bloom/v1.rs:test_show_bug_in_v1"]}
{"id": "C79", "title": "Reported benchmark time", "statement": "`benchmark` returns, for a positive number of runs, a duration between the shortest and the longest measured run, namely the mean of the runs that are not outliers; a single run is reported exactly.", "quantifier": "all numbers of runs, all measured durations", "why_tests_cant": "the measured times differ on every execution and the repository has no test of the function; whether every time can be discarded as an outlier depends on rounding errors over all lists of times", "anchors": ["poppy/src/utils.rs:benchmark", "poppy/src/utils.rs:time_it_once"]}
{"id": "C80", "title": "The count recomputed after a merge", "statement": "After a successful union or intersection the count is the number of entries that the set bits lead one to expect, -(m/k) ln(1 - X/m), up to the truncation of one entry per estimate; it is never below X/k rounded down in a bucket; and few entries that share no position are counted exactly.", "quantifier": "all filters, all pairs, every math library with an accurate logarithm", "why_tests_cant": "the tests compare counts for a few sets of entries; the claim is about every number of bits, and the failing case needs a filter of 99 MB that tests do not build", "anchors": ["poppy/src/bloom/v1.rs:update_count", "poppy/src/bloom/v2.rs:update_count"]}
{"id": "C81", "title": "count_common_entries estimates the common entries", "statement": "count_common_entries of two filters estimates the number of entries they have in common: common entries are counted, and filters without a common entry give 0.", "quantifier": "all pairs of filters, all sets of entries", "why_tests_cant": "the tests use filters with many common entries, and the bias only shows on average over all hash values", "anchors": ["poppy/src/bloom/v1.rs:count_common_entries", "poppy/src/bloom/v2.rs:count_common_entries"]}
{"id": "C82", "title": "On average the recomputed count is the number of entries", "statement": "Over all equally likely positions of n entries, the count that a union recomputes from the bits is on average not below n by more than the truncation (one entry per v1 filter or v2 bucket) and not above n by more than 2.2/k, while at most three quarters of the bits are set.", "quantifier": "all numbers of bits, hash functions, entries and buckets; every math library with an accurate logarithm", "why_tests_cant": "an average over all hash values cannot be measured by tests, and the bias of the estimate is smaller than its spread", "anchors": ["poppy/src/bloom/v1.rs:update_count", "poppy/src/bloom/v2.rs:update_count"]}
{"id": "C83", "title": "Buffered loading does not depend on how the medium delivers the bytes", "statement": "Loading a filter through the nested BufReader layers gives the same outcome as parsing the whole content, however the operating system splits the reads and whenever it interrupts them, in full and in partial mode.", "quantifier": "all contents, all splittings of reads, all interruptions, both builds, both formats and the generic filter", "why_tests_cant": "tests read from memory or from a local disk, which deliver whole buffers; the ways to split the reads are unbounded", "anchors": ["poppy/src/bloom.rs:239-262", "poppy/src/bloom/v1.rs:152-170", "poppy/src/bloom/v2.rs:172-192"]}
{"id": "C84", "title": "A read failure never gives a wrong filter", "statement": "If the medium may fail while a filter is loaded, the outcome is either an I/O error or exactly the outcome for the whole content; if the medium cannot be read to its end, no filter is returned.", "quantifier": "all contents, all sequences of short reads, interruptions and failures", "why_tests_cant": "no test injects read failures", "anchors": ["poppy/src/bloom.rs:239-262"]}
{"id": "C85", "title": "Lines of data files from a medium with short reads and failures", "statement": "Counting lines gives the number of lines of the content and always ends; the loops that insert or check lines handle a prefix of the lines of the content, and all of them if they report no error.", "quantifier": "all contents, all sequences of short reads, interruptions and failures", "why_tests_cant": "no test injects read failures or passes a directory", "anchors": ["poppy/src/bin/poppy.rs:205", "poppy/src/bin/poppy.rs:224", "poppy/src/bin/poppy.rs:346"]}
{"id": "C86", "title": "create and insert when files cannot be opened or read", "statement": "When files fail to open, are delivered in pieces, interrupted, or fail to be read, insert either does exactly what it does with readable files or changes no file and does not succeed. create does likewise, with a capacity that is the number of lines of the dataset; if it succeeds the saved filter holds every line.", "quantifier": "all file systems, all inputs, all sequences of short reads, interruptions and failures, any number of workers", "why_tests_cant": "no test injects failures, and the CLI has no tests with several workers failing", "anchors": ["poppy/src/bin/poppy.rs:188-282", "poppy/src/bin/poppy.rs:288-335"]}
{"id": "C87", "title": "check when files cannot be opened or read", "statement": "When files fail to open or to be read, check prints only lines that are right, and if it reports success it printed exactly what it prints for readable files.", "quantifier": "all file systems, all inputs, all sequences of short reads, interruptions and failures, all interleavings of the workers", "why_tests_cant": "no test injects failures", "anchors": ["poppy/src/bin/poppy.rs:337-410"]}
{"id": "C88", "title": "A filter file can be read while insert rewrites it", "statement": "While one process runs insert on a file saved by the library, another process that reads that file either fails or gets a filter with the same parameters and attached data, with all the old bits and no bit that is neither old nor one of a line to insert; in particular it contains whatever the old filter contained. The reader does not disturb insert: the file is always the old one or a beginning of the new one, and the whole new one once insert is done.", "quantifier": "all filters, all inputs, all interleavings of the reads and writes of the two processes, of any size, with either process killed at any time", "why_tests_cant": "no test runs two processes; the interleavings are too many to try", "anchors": ["poppy/src/bin/poppy.rs:320-342", "poppy/src/bloom.rs:145-190"]}
{"id": "C89", "title": "Two inserts into the same file at the same time", "statement": "When two processes insert into the same file at the same time and both succeed, the file is a filter with the same parameters, which contains what it contained and the lines of both processes, and has no other bit.", "quantifier": "all filters, all inputs, all interleavings of the reads and writes of the two processes, of any size", "why_tests_cant": "no test runs two processes; the interleavings are too many to try", "anchors": ["poppy/src/bin/poppy.rs:320-335"]}
{"id": "C90", "title": "The false-positive rate of almost every filter", "statement": "For hashes that spread entries evenly, not only the average false-positive rate is near the requested one: the rate of the filter one gets is, but for an exponentially small fraction of the choices of positions. A v1 filter made for cap >= 1000 entries and holding at most that many has more than three times the requested rate in at most a fraction exp(-cap/(140 K)) of the cases. A v2 filter of b buckets without index cache is more than t above 9/4 of the requested rate in at most a fraction exp(-20000 t^2 b / K^3), and a bucket that holds its share is more than a factor exp(2 K d) above the bound of its average in at most a fraction exp(-16384 d^2).", "quantifier": "all capacities from 1000 (v1) or 1 (v2) below 2^53, all rates up to 1/2 (and down to 2^-100 or 2^-30), all numbers of entries up to the capacity, all margins", "why_tests_cant": "a test sees one filter; the fraction of bad ones is far too small to be measured", "anchors": ["poppy/src/bloom/utils.rs:4-40", "poppy/src/bloom/v1.rs:166-203", "poppy/src/bloom/v2.rs:291-351"]}
{"id": "C91", "title": "The recomputed count of almost every filter", "statement": "For hashes that spread entries evenly, the count recomputed after a merge is within (5/2 d + 1)/K + 1.01 of the number n of entries but for a fraction exp(-d^2/(2m)) + exp(-d^2/(4m)) of the choices of positions, for a v1 filter of m bits or a bucket of a v2 filter, as long as K n <= 3/4 m.", "quantifier": "all numbers of bits up to 2^40, all numbers of hash functions, all numbers of entries up to 3/4 m / K, all margins d up to m/20, any libm within the stated accuracy", "why_tests_cant": "a test sees a few merges; the deviations are rare", "anchors": ["poppy/src/bloom/v1.rs:329-334", "poppy/src/bloom/v2.rs:574-587"]}
{"id": "C92", "title": "The requested rate under double hashing", "statement": "For hashes that spread entries evenly, a v2 filter holding at most its capacity has a false-positive rate near the requested one: at most 5/2 of it for rates from 1/1000 to 1/2. (False for low rates: all positions of an entry in its bucket are computed from 15 bits of each of the two hashes, so every entry brings in every key of its bucket with the same 30 bits, whatever the number of hash functions. The rate is at least about n/(b 2^30) for n entries in b buckets, and more than twice the requested one for every filter made for a rate of at most 2^-22 and at least two buckets' worth of entries.)", "quantifier": "all capacities, all rates from 1/1000 to 1/2 (upper bound) or up to 2^-22 (lower bound), all numbers of entries up to the capacity, all filters without index cache, any libm within the stated accuracy", "why_tests_cant": "rates below one in a million cannot be measured with tests of some thousand queries; the tests in the repository go down to 1e-4 or so", "anchors": ["poppy/src/bloom/v2.rs:66-121", "poppy/src/bloom/v2.rs:291-351", "poppy/src/hash.rs:52-63"]}
{"id": "C93", "title": "The rate for entries of at most eight bytes", "statement": "The false-positive rate of a v2 filter does not depend on what the entries look like. (False: slices of at most eight bytes are not hashed, so the first 15 bits of the double hash are those of their first two bytes. For entries with the same two first bytes, such as dates or numbers, the positions depend on 15 bits only, and a bucket that holds its share has more than five times the requested rate, if that is at most 1/64.)", "quantifier": "all rates up to 1/64, all values of the first two bytes, all numbers of hash functions, any libm within the stated accuracy", "why_tests_cant": "the tests insert entries of many lengths or random ones, and the rate depends on the distribution of the entries", "anchors": ["poppy/src/hash.rs:23-63", "poppy/src/bloom/v2.rs:66-121"]}
{"id": "C94", "title": "Short entries spread over the buckets", "statement": "A v2 filter spreads its entries over its buckets and its index cache, whatever they look like. (False: entries of at most eight bytes are not hashed, and the low k bits of the bucket hash depend on the low k + 25 bits of the entry only. With 2^j buckets, j at most 7, the first four bytes of a short entry decide its bucket, with j at most 15 the first five; the same holds for the bits of the cache. Filters of level speed always have a power of two buckets. Entries that agree on these bytes fill one bucket and one cache bit, and the answer depends on 15 bits.)", "quantifier": "all filters with 2^j buckets, all short entries, all numbers of bytes, all hashes", "why_tests_cant": "the tests insert entries of many forms or random ones; the effect depends on the number of buckets and on the common start of the entries", "anchors": ["poppy/src/bloom/v2.rs:30-36", "poppy/src/bloom/v2.rs:49-121", "poppy/src/bloom/v2.rs:291-351", "poppy/src/hash.rs:52-63"]}
{"id": "C95", "title": "Loading a filter requests memory in proportion to the file", "statement": "Loading a filter requests at most 16384 bytes and one byte per byte of the file. (Holds for files that load, for the cut files of such files and for partial reads of any file. False of other files: a header of 56 bytes requests any number of buckets up to isize::MAX bytes before the missing bytes are noticed, one of 48 bytes of version 1 any number of words.)", "quantifier": "all files, all lengths, both formats, both profiles", "why_tests_cant": "the tests load files they wrote themselves; the amount depends on eight bytes of the header", "anchors": ["poppy/src/bloom/v2.rs:184-250", "poppy/src/bloom/v1.rs:162-212", "poppy/src/bloom.rs:235-273"]}
{"id": "C96", "title": "Work per query and insertion", "statement": "A query or an insertion visits at most one bit per hash function and one of the cache; a positive answer and a successful insertion visit all of them. Filters from the constructors have at most 1033 hash functions (654 with a cache, 1023 for version 1). (The second part is false of filters from files: the number of hash functions is not checked, and a file of 4152 bytes, or 56 of version 1, makes every query visit any chosen number of bits below 2^64.)", "quantifier": "all filters, entries, hashes; all files", "why_tests_cant": "a test sees the answer, not the number of steps, and a run of 2^64 steps never ends", "anchors": ["poppy/src/bloom/v2.rs:359-429", "poppy/src/bloom/v2.rs:431-512", "poppy/src/bloom/v1.rs:251-320", "poppy/src/bloom/v2.rs:184-250"]}
{"id": "C97", "title": "Different entries of version 1 have different hash values", "statement": "Different byte strings have different hash values, so that each filter of suitable size tells them apart. (Holds of entries that differ in one byte only. False in general: FNV-1 keeps the value 0 when zero bytes are appended, an entry of nine bytes has the value 0, and so for every ending u no version 1 filter of any size tells this entry followed by u from this entry, any number of zero bytes and u.)", "quantifier": "all entries, all version 1 filters, any number of zero bytes, any ending", "why_tests_cant": "a collision of a 64-bit hash is not met by chance, and no finite test shows an infinite family", "anchors": ["poppy/src/hash/fnv.rs:5-54", "poppy/src/bloom/v1.rs:17-64", "poppy/src/bloom/v1.rs:251-320"]}
{"id": "C98", "title": "Output of check when standard output fails", "statement": "Whatever standard output does, what arrives from check is the beginning of an output the command may give, and the exit status is 0 only if all of it has arrived. (The first part holds when a failed output stays failed, when one thread prints, and for any failures when all lines are shorter than 1018 bytes and, with --verify, not empty. It is false of several jobs otherwise: after a failure the line of another thread is glued to the part of a line that arrived. The second part holds unless the descriptor is not open for writing, which std takes as success.)", "quantifier": "all files, jobs, interleavings of threads and answers of the write calls", "why_tests_cant": "tests print to a pipe that takes everything; failures in the middle of a line and the order of threads are not reproducible", "anchors": ["poppy/src/bin/poppy.rs:337-410"]}
{"id": "C99", "title": "Python programs", "statement": "In any Python program that makes, loads, fills, merges, dumps and saves filters, every entry its calls have put into an object, directly, by a union, or through a dump or a file, is found in it; positive answers stay; a call changes only the object it is made on or the file it saves to; and a call that raises an exception other than PanicException has changed nothing. (The first part fails for version 1 filters without bits.)", "quantifier": "all programs of calls, all files present at the start, all arguments", "why_tests_cant": "programs are unbounded sequences over several objects and files that share entries", "anchors": ["python/src/lib.rs:27-153"]}
{"id": "C100", "title": "Sessions of commands and programs", "statement": "In any session of create and insert commands, Python programs and other programs that write files, one after the other on the same files, every entry the session has put into a filter file or a Python object, by whatever way, is found there, also by check; the files concerned can be loaded; and when no filter comes from elsewhere the bits of every filter are exactly those of the entries put into it. (The first part fails for version 1 filters without bits.)", "quantifier": "all sessions, all files present at the start, all arguments, numbers of jobs and standard inputs", "why_tests_cant": "sessions are unbounded sequences over several files and objects that pass entries on", "anchors": ["poppy/src/bin/poppy.rs:284-410", "python/src/lib.rs:27-153"]}
{"id": "C101", "title": "The command line", "statement": "The accepted command lines are exactly those of the documented grammar: options of each command in any of their spellings, each at most once and anywhere among the operands, missing ones replaced by their defaults. A number is read as the nearest double (ties to even) of the decimal number written, and every double can be written so that it is read back exactly. A run changes at most one file, which is named on the command line and belongs to create or insert. Create without options followed by check --verify on the same files reports nothing missing, and what show prints suffices to create an empty filter with the same parameters.", "quantifier": "all sequences of arguments, all texts of numbers, all files, all builds and C libraries", "why_tests_cant": "there are infinitely many command lines and texts of numbers; correct rounding can fail at isolated halfway cases", "anchors": ["poppy/src/bin/poppy.rs:31-151", "poppy/src/bin/poppy.rs:284-565"]}
{"id": "C102", "title": "The commands of the README", "statement": "Every command line shown in README.md does what the README says, for all file names and contents: create with a capacity and a probability followed by show, insertion from files and from standard input with the same resulting bits, check from files and from standard input with the same lines printed, creation from a data set with all processors. (Fails for poppy -j 0 check, which always panics, and for poppy create help, which makes a filter file called help.)", "quantifier": "all file names, file contents, standard inputs, builds and C libraries", "why_tests_cant": "the README speaks of arbitrary files; the two ways of inserting and checking agree for all of them", "anchors": ["README.md:68-160", "poppy/src/bin/poppy.rs:284-410"]}
{"id": "C103", "title": "Cross-compatibility with the DCSO library", "statement": "A file is loaded as a v1 filter exactly when the DCSO bloom library reads it and its level byte is below 4, with the same filter in both programs; both write the same bytes; every query on a filter with bits and every insertion below the capacity has the same effect or the same crash; in any session where the two programs take turns on one file, each turn may be taken by either program with the same resulting file, and no value inserted by one is lost by the other. The only differences: at the capacity a new value is refused here and accepted there, and a filter without bits answers no here.", "quantifier": "all files, filters, values and mixed sessions of any length", "why_tests_cant": "the repository holds one file of the other library and checks five words against it; compatibility concerns all files and all sequences of operations of two programs", "anchors": ["README.md:12", "poppy/src/bloom/v1.rs:69-73", "poppy/src/bloom/v1.rs:145-315", "poppy/src/data/test.bloom"]}
{"id": "C104", "title": "Exit status of the program", "statement": "Every command line has a run, which ends with status 0, 1, 2 or 101; repeating it in the same circumstances gives the same files and status however the threads are scheduled, and on success the same lines up to their order. A status other than 0 means no file changed, unless the disk was too small for the filter; status 0 of create and insert means that the filter is in the file. The status of check depends only on the readability of filter and inputs, not on the answers, and with --silent nothing is printed.", "quantifier": "all command lines, files, standard inputs, builds, numbers of jobs, schedules and sizes of the disk", "why_tests_cant": "the repository has no test of the program; the schedules of the threads and the states of the file system are unbounded", "anchors": ["poppy/src/bin/poppy.rs:284-565", "poppy/src/bin/poppy.rs:217-282"]}
{"id": "C105", "title": "Recomputed counts follow the bits", "statement": "Of two merged filters with the same parameters, one having all bits of the other and no full bucket, the one with more bits does not report a smaller count. So merging in a further filter never lowers the count of the previous merge, intersecting never raises it, and the number of common entries is at most the count of the union. A union never counts less than one of its operands.", "quantifier": "all filters reachable through the API, all logarithm functions accurate to 2^-50", "why_tests_cant": "the count is the truncation of a floating-point expression; its monotonicity concerns every pair of numbers of set bits and every accurate libm", "anchors": ["poppy/src/bloom/v1.rs:329-334", "poppy/src/bloom/v1.rs:383-429", "poppy/src/bloom/v2.rs:555-587", "poppy/src/bloom/v2.rs:613-645"]}
{"id": "C106", "title": "Integers, options and structures as entries", "statement": "Entries of type integer, Option or a structure with derived Hash feed the hasher with the bytes the Rust documentation prescribes. No two values of a type feed the same bytes, nor is one the beginning of the other, so two values share a hash value only if the hash function collides. A filter filled on one machine answers for the same entries on a machine of another byte order or pointer size.", "quantifier": "all types built from integers, byte strings, texts, Option and structures; all values; all hash functions; all targets", "why_tests_cant": "tests use a handful of types; injectivity concerns all pairs of values of infinitely many types, and other byte orders cannot be run", "anchors": ["poppy/src/hash.rs:15-50", "poppy/src/hash/wyhash.rs:23-33", "poppy/src/bloom/v2.rs:76-83"]}
{"id": "C107", "title": "Attached data of a partially opened file", "statement": "Whatever the file, a partial open that succeeds takes the attached data from behind the filter content announced by the header, and none of them from the filter content itself.", "quantifier": "all byte strings, both versions, both builds", "why_tests_cant": "the announced lengths are arbitrary 64-bit numbers multiplied and converted to signed offsets", "anchors": ["poppy/src/bloom/v1.rs:162-212", "poppy/src/bloom/v2.rs:184-250"]}
{"id": "C108", "title": "What the conditions of a benchmark measure on average", "statement": "With all draws equally likely, a mutated line of the bench command is a uniformly distributed byte string of its length, so the expected number of false positives of a condition is the expected number of mutated lines weighted with the share of byte strings of their length that the filter reports, entries included. The printed percentage of queried values in the filter is the expected share of lines that are not mutated.", "quantifier": "all filters, all lists of lines, all ten conditions, averages over all draws", "why_tests_cant": "the generator has a fixed seed, so a run sees one draw; the statement is about the average over all of them", "anchors": ["poppy/src/bin/poppy.rs:483-521", "poppy/src/bin/poppy.rs:535-538"]}
{"id": "C109", "title": "Entries prepared once; the examples of the documentation", "statement": "Keys hashed beforehand with build_index_iter can be inserted one after another as long as the filter has room: no insertion fails, each key is found with contains_iter right after its insertion, and in the end all of them and everything inserted before are found. The code examples of the documentation of Params, BloomFilter, bloom! and contains_iter run without panic and their assertions hold.", "quantifier": "all filters reached by calls, all lists of keys that fit, every hash function, both builds, every libm of the trusted base", "why_tests_cant": "a documentation test runs one hash function and one libm, and would pass by luck if an entry were found as a false positive", "anchors": ["poppy/src/bloom/v2.rs:432-450", "poppy/src/bloom.rs:116-128", "poppy/src/bloom.rs:184-196", "poppy/src/bloom.rs:422-446"]}
{"id": "C110", "title": "Which strings of the program are text", "statement": "Every String of the tool holds valid UTF-8. True of every line read from a file or standard input and of the entries of a benchmark. False of the lines that bench mutates: any non-empty line can become invalid, and on average at most (4/7)^n of the mutated lines of n bytes are still valid.", "quantifier": "all bytes read, all entries, all draws of the random generator, averages over all of them, all conditions", "why_tests_cant": "bench never looks at the mutated lines as text, so no run shows that they are invalid; the average over all keys of a line of 64 bytes is over 256^64 of them", "anchors": ["poppy/src/bin/poppy.rs:483-505", "poppy/src/bin/poppy.rs:346-347", "poppy/src/bin/poppy.rs:384", "poppy/src/bin/poppy.rs:423"]}
{"id": "C111", "title": "create while the files change", "statement": "create reads its dataset twice, to count lines and to insert them, and looks at its output once before. Whatever happens to the files in between, it writes a filter within its capacity that contains every line it read in the second pass, or writes nothing; and it never replaces a file that is not a filter. When it succeeds the lines of the second pass are contained, and it succeeds if they are not more than were counted. With one batch the capacity is respected. False otherwise: grown files make it panic with one job and overfill the filter with several, and an output that appears after the check is overwritten.", "quantifier": "all states of the file system at the four moments, all arguments, both versions and builds, every number of jobs, hash function and libm of the trusted base", "why_tests_cant": "the window between the two passes and between check and save cannot be hit reliably, and the overfilled filter is written with status 0", "anchors": ["poppy/src/bin/poppy.rs:288-319", "poppy/src/bin/poppy.rs:188-216", "poppy/src/bin/poppy.rs:232-282"]}
{"id": "C112", "title": "The size and the speed that bench prints", "statement": "bench prints a test size, a speed per condition and an average speed. As many lines are queried as the test size says, and the average speed is the number of queries divided by the time they took. True: the lines queried are the smaller of the printed size and the dataset; the average printed is the mean of the speeds up to rounding, which is never below the overall speed. False: a test size above the dataset is printed as given; the mean can be a hundred times the overall speed; one time of zero in the first condition makes the average not a number.", "quantifier": "all arguments, datasets, shuffles and draws; all times of the conditions from a nanosecond to 2^20 seconds (12 days) and up to 2^33 queries", "why_tests_cant": "times of a run are not chosen by the tester, and a plausible figure is printed in every case", "anchors": ["poppy/src/bin/poppy.rs:464-481", "poppy/src/bin/poppy.rs:526", "poppy/src/bin/poppy.rs:541", "poppy/src/bin/poppy.rs:554-555"]}
{"id": "C113", "title": "The same parameters on two machines", "statement": "Filters created with the same version, capacity, rate and level have the same shape on every machine, so that they can be merged. True if the C libraries agree on ln 2, (ln 2)^2, ln of the rate and, with an index cache, the estimated rate of the cache; otherwise sizes of version 1 are equal up to 2^-47 of the optimum and one bit, and the capacities of the buckets of version 2 differ by at most one for rates up to 1/2. Merging the same filters on two machines gives the same answers and errors. False: two libraries that differ in one value by one unit in the last place, both within one unit of the exact value, give filters that refuse to merge, in both versions.", "quantifier": "all C libraries with the stated accuracy, all capacities and rates, both builds", "why_tests_cant": "tests run with one C library", "anchors": ["poppy/src/bloom/utils.rs:1-24", "poppy/src/bloom/v2.rs:281-329", "poppy/src/bloom/v1.rs:104-130", "poppy/src/bloom/v1.rs:373-381", "poppy/src/bloom/v2.rs:598-605"]}
{"id": "C114", "title": "What the messages of errors say", "statement": "A Python program gets the errors of the library as a ValueError, told apart by the text only. The text names what is at fault: the rate, version or level that was given and is out of range, a file that is short or wrong, a filter with no room, two filters of different parameters. Two errors of one text are the same error up to how a rate is printed. False: 'union error' is also said by count_common_entries; 'fpp value must be in ]0;1]' is also said of a rate that is (a subnormal).", "quantifier": "all Python programs on all files, all arguments, both builds, all hash functions, C libraries and printings of floats", "why_tests_cant": "no test looks at a message; which errors a call can give is a statement about all states", "anchors": ["poppy/src/bloom.rs:79-83", "poppy/src/bloom.rs:98-115", "poppy/src/bloom.rs:328-350", "python/src/lib.rs:14-25"]}
{"id": "C115", "title": "Which errors the program can end with", "statement": "A run of create ends only with these errors: the output file is there and is not a filter, the level, version or rate given is out of range, or files cannot be read or written. A run of check or show ends only with the errors of a bad file. A run of insert ends with those, or with 'too many entries' for lines of standard input. A run of bench ends with those of a bad file, or, with no file given, of a level, version or rate out of range; never with 'too many entries'. Errors come in a set order: create refuses the output file first, then the level, the version and the rate; a named filter that is missing or does not load is reported before anything is changed. No run reports filters of different parameters, as one filter is named. A filter that gets full is reported. The last two are false: inserting several files into a version 1 file with a rate that is NaN reports a merge, and lines of an input file that do not fit end the program with a panic.", "quantifier": "all command lines, files, standard inputs, builds, hash functions and C libraries", "why_tests_cant": "no test runs the program; that an error never appears is a statement about all runs", "anchors": ["poppy/src/bin/poppy.rs:205-282", "poppy/src/bin/poppy.rs:284-565", "poppy/src/bloom.rs:98-115"]}
