# Formal model of hashlookup/poppy in Rocq (Coq 8.16.1)

Line numbers are those of the pinned commit in `/repo`; paths are relative to `/repo/poppy/src` unless they start
with `python/`.

## 1. Method

* `rocq/theories/M_*.v`: executable Gallina model of the Rust code, function by function, no proofs. Every definition cites
  the lines it models.
* `Spec_*.v`: the small separate specification the theorems are stated with (positions of a key, histories, files,
  lists of lines, real-number formulas, small-step threads, scripts of calls). They do not call the model's helpers
  for what they specify.
* `P_*.v`: lemmas. `Ex_*.v`: concrete filters and keys. `Prop_*.v`: the theorems `Cxx_…` (named after
  `properties.jsonl`), each followed by `Print Assumptions` and by `Example`s that instantiate its hypotheses on a concrete,
  non-trivial case. Examples are tests, not proofs; nothing else in `Prop_*.v` is bounded.
* A theorem ending in `_refuted` exhibits a witness against a property that the code does not meet; one ending in
  `_partial` proves less than the property, and what is missing is in its comment and in `MANIFEST.json`.
* A method taking `&mut self` returns the new value next to its result. `Result` and panics are data:
  `outcome A = Ok a | Err e | Panic`.
* Machine integers are `N` with wrap (`mod 2^64`), overflow check or saturation written explicitly; `usize` is
  64 bits. A `profile` (`Debug`/`Release`) decides whether an overflowing `+ - *` panics or wraps; theorems quantify
  over it.
* An `f64` is its 64-bit pattern (so that `to_le_bytes`/`from_le_bytes` are exact) and is decoded to the standard
  library's `SpecFloat.spec_float` for arithmetic. `+ - * /`, comparisons, casts, `ceil`, `round`, `abs` are computed
  exactly (binary64, round to nearest even).
* `ln`, `exp`, `powf` have no precision specified by Rust: they are fields of a record `libm` passed to the model.
  A theorem holds for every `libm`, or names the facts it needs as hypotheses: `libm_ln2`, `libm_ln2_sq`,
  `libm_ln1`, `libm_ln_range` (`Spec_Libm.v`), `libm_accurate` (`Spec_Real.v`, relative error 2^-50),
  `libm_exp_accurate` (`Spec_Exp.v`). `real_libm_meets_all` (`Prop_Size.v`) and `real_libm_exp` (`Prop_RateCached.v`) prove that
  the correctly rounded library meets all of them.
  `ref_libm` (`M_RefLibm.v`) is a computable instance used to evaluate concrete filters.
* WyHash is not part of `/repo`: it is an arbitrary function `wy : list (list byte) -> N` from the sequence of
  `write` calls to the digest, reduced modulo 2^64. Every theorem quantifies over it.
* Readers are a byte string and a position (a `Cursor` or regular file). Writers are a sink that fails after a given
  number of bytes, below a model of `BufWriter` (8 KiB buffer, flush on drop that ignores errors).
* The threads of `create`/`insert`/`check` are a small-step interleaving; theorems quantify over schedules.

## 2. Trusted base

* The Coq 8.16.1 kernel (and `coqchk` for the independent check).
* Flocq 4.1.0 for the lemmas on binary64 rounding. It is used in proofs only: the model runs on `SpecFloat` of the
  standard library, and no statement mentions Flocq except those with real numbers (C35, C36, C65-C69, C77, C78, C80-C82, C101, through
  `Spec_Real.v`).
* Axioms of the standard library's real numbers, reached through Flocq: `ClassicalDedekindReals.sig_forall_dec`,
  `ClassicalDedekindReals.sig_not_dec`, `FunctionalExtensionality.functional_extensionality_dep`,
  `Classical_Prop.classic`. Section 7 lists, for each theorem, what `Print Assumptions` prints. No axiom is ours,
  and no other library's.
  (`coqchk` lists in addition opaque module implementations of the standard library, e.g. `RbaseSymbolsImpl` and
  `ssrunder.Under_rel`; no theorem depends on them as axioms.)
* The reading of the Rust sources by hand. Section 6 says how it was challenged. `Ex_Conform.v` transcribes the unit tests of
  the repository (`fnv.rs`, `wyhash.rs`, `v1.rs`, `v2.rs`, `bloom.rs`) other than those on random data or time: the model passes
  all of them, and also produces `data/test.bloom` (written by the Go implementation) byte for byte. For the v2 tests the oracle
  is instantiated with the first version of wyhash (`Ex_Wyhash.v`, from memory, checked against the value of `wyhash.rs:47`).
  `Ex_Args.v` compares the reading of 160 numerals with what Python reads.
* The behaviour of the DCSO library (`Spec_Dcso.v`, C103 only), from memory; it produces `data/test.bloom` byte for byte.
* What the standard `Hash` writes for integers, slices, texts, options and derived structures, and how it differs between targets
  (`std_hash` in `M_Hash.v`, `Spec_Keys.v`, C106), from its documentation and memory.
* Behaviour of dependencies as stated in section 3.

## 3. What is modelled

| file | source | remarks |
|---|---|---|
| `M_Base.v` | integers, `outcome`, lists | wrapping, checked and saturating operations, `next_power_of_two` |
| `M_Float.v` | `f64` | NaN payloads are kept in stored values only |
| `M_BitSet.v` | `bitset/array.rs`, `bitset/vec.rs` | both are byte lists; the fixed length of `BitSet<N>` is an invariant |
| `M_Hash.v` | `hash.rs`, `hash/fnv.rs`, `hash/wyhash.rs`, index iterators of `bloom/v1.rs`, `bloom/v2.rs` | WyHash itself is an oracle |
| `M_Util.v` | `bloom/utils.rs` | |
| `M_IO.v` | readers, `BufWriter`, header flags of `bloom.rs` | a reader is its content; `M_BufRead.v` justifies this (C83, C84) |
| `M_V1.v` | `bloom/v1.rs` | whole file |
| `M_V2.v` | `bloom/v2.rs` | whole file |
| `M_Cost.v` | the readers and the query and insertion functions again, with a meter for bytes requested and bits visited | spare capacity of growing vectors is not counted |
| `M_Python.v` | `python/src/lib.rs` | calls on numbered objects and files; exceptions; the borrow rule of pyo3 |
| `M_Session.v` | sessions | commands, Python calls and other programs writing files, one after the other |
| `M_Args.v` | `bin/poppy.rs`: `Cli`, `Command` and their arguments, `main` | clap 4 and `FromStr`, from memory: an option given twice is an error; `--x v`, `--x=v`, `-x v`, `-xv`, `-x=v`, switches behind one dash; a separate value or operand does not begin with a dash (but may be one dash), everything after `--` is an operand; `u8` and `u32` go through `i64`, `usize` through `FromStr`; `String` is UTF-8, a `PathBuf` not empty; options are not global. Help and usage errors are one ending; numeral length is not bounded |
| `M_Exit.v` | exit statuses of `main` (status of `Result`, of a panic and of clap) |
| `M_Moving.v` | create over a file system that changes between its passes (a file named twice in the dataset is taken to be read alike both times) |
| `M_Report.v` | test size, speed of a condition and average speed that bench prints (the text around the numbers and the MB/s figure are left out) |
| `M_Messages.v` | texts of the library's errors and of a Python ValueError (text of an io::Error and Display of an f64 are parameters) |
| `M_Stdout.v` | `println!` of `check` over a standard output whose write calls take few bytes or fail | std's `LineWriter` and its clean-up at exit, from memory; interrupted calls are left out; the lock makes each `println!` atomic |
| `M_Bloom.v` | `bloom.rs` (`Params`, generic filter, `bloom!`), `python/src/lib.rs` | PyO3 conversions are the identity on bytes |
| `M_Utils.v` | `utils.rs`: `ByteSize`, `Stats` | `statrs` 0.16's mean is assumed to be its documented incremental formula |
| `M_Lines.v` | `BufRead::lines`, UTF-8 validation | std functions used by the tool |
| `M_Cli.v` | `bin/poppy.rs`: create, insert, check, show; files of `python/src/lib.rs` | file system = map from path to content |
| `M_Bench.v` | `bin/poppy.rs`: bench | random draws are a parameter; the hash set iterates in an arbitrary order |
| `M_Text.v` | printed text: `ByteSize`, `OptLevel`, `show` | `{:.1}` rounds the exact value half to even; Display of `f64` is a parameter |
| `M_Timing.v` | `utils.rs`: `benchmark`, `time_it_once` | the measured durations are a parameter; `statrs` 0.16's variance formula and std's `Duration` conversions are from memory |
| `M_BufRead.v` | `BufReader`, `read_exact`, `seek_relative`, `lines` of std; the loaders again over them | a medium is its content and a list of events (short read, interruption, failure), and may fail for good; std from memory |
| `M_CliIO.v` | create, insert, check of `bin/poppy.rs` again, over the media of `M_BufRead.v` | relations: each time a file is opened it may fail, and gets any plan of events; the content is the same each time; a count of 2^64 lines or more is left out |
| `M_Live.v` | two processes that open the same filter file, `bin/poppy.rs:320-342` | a transition system: reads and writes of any length, O_TRUNC, sparse writes, a process may be killed at any time; the other input files do not change; each read and write is atomic |
| `M_RefLibm.v` | none | stands in for the C library |

Simplifications that matter:

* Memory is sufficient: allocation failure is left out. The deterministic "capacity overflow" panic (more than
  `isize::MAX` bytes) is modelled.
* Sums of bit counts (`count_ones`) are unbounded; a bit set of 2^64 bits does not exist.
* A partial read (`show`) of a file announcing a huge size: the overflow of the multiplication is modelled, the
  operating system's refusal to seek is `Err IoError` exactly for negative or overflowing offsets.
* `File::create` truncates first, then the calls of `BufWriter` follow: the crash model of C48 stops after any
  number of bytes.
* Threads share nothing in `parallel_insert`; in `check` they share standard output, and a print is atomic
  (the lock of `println!`).
* Messages of errors are dropped, their constructor is kept. `anyhow` errors are the error they wrap.

Not modelled: the clock (`benchmark` is modelled for any measured durations), `clap` argument parsing, log and progress output on standard error,
the exact text printed by `bench` (its values are modelled), libm and WyHash internals, the distribution of
hash values (the hash is an arbitrary function; C67 and C68 average over all positions and buckets, as if each were equally likely), the unsafe
`as_bytes_mut` of bench beyond its effect on bytes (it can leave a `String` that is not UTF-8, which is undefined
behaviour in Rust: C110).

## 4. Properties and how they are proved

| id | what is proved about | how |
|----|-----------|------------|
| C01 | v2, v1, generic: insert, contains, merges, clear, reload | invariant over inductive call trees: all positions of the keys that must be found are set |
| C02 | v1 | the same; `C02_refuted` for filters of zero bits |
| C03 | v1, v2 | bits of the state = set computed from the history |
| C04 C05 | creation, clear | zero lists; witnesses for the stale index cache |
| C06-C10 | insert | loop lemmas; induction over histories |
| C11 | merges, then insert | witness: `is_full` tests equality |
| C12 C13 C14 | merges | pointwise `lor`/`land`; case analysis of the refusals |
| C15 | `has_same_params` | v1 witness with a NaN probability |
| C16-C19 | write, readers | little-endian codecs, parser run on `a ++ b`, exactness of the byte-size computation (Flocq) |
| C20 C21 C22 | header, readers, partial readers | exact characterisation of accepted and panicking files |
| C23 C35 | creation | Flocq: exactness below 2^53, bounds on the number of buckets and hash functions |
| C24-C30 | hashes and index iterators | induction, arithmetic modulo 2^64, inverse of the xor-shift |
| C31-C34 | bit sets and sizes | `testbit` lemmas |
| C36 | sizing | error analysis in real numbers under `libm_accurate` |
| C37 | accepted probabilities | order of bit patterns |
| C38 C39 | fill | bits as a union, permutations |
| C40-C43 | parallel insertion | refinement to a union of per-batch filters; confluence of the interleavings |
| C44 C45 | check | all schedules: printed lines = permutation of the specified lines |
| C46 C47 C57 C63 C64 | create, insert, check combined | composition of the above |
| C48 C49 | saving | prefix invariant of `BufWriter`, crash points |
| C50 | lines | list induction |
| C51 C60 C65 | `ByteSize`, `Stats` | arithmetic; error analysis of the rates |
| C52 C62 | Python | corollaries of C16 and C49 |
| C53 C54 C56 | dispatch, counts, data | case analysis |
| C55 | merge overflow | v2 witness: a saturated bucket has an infinite estimate |
| C58 | debug/release agreement | simulation: whenever the debug build does not panic, both give the same result |
| C59 | show | simulation of the partial reader |
| C67 C68 | sizes of filters | average over all position sequences bounded above (conditioning on distinct positions) and below (convexity), error analysis of the sizes, exponential moment of the load of a bucket |
| C77 | number of hash functions with a cache | error analysis of exp, powf and the rounding of bits per entry |
| C78 | power-of-two v1 filters | induction on the sequence of hash values modulo 2^a; inverse of the multiplier modulo 2^64 |
| C79 | `benchmark` | error bounds for the incremental mean and variance; a run nearest the mean is within three computed standard deviations |
| C80 | recomputed count | error analysis of the double computation against -(m/k) ln(1 - x/m); bounds of the logarithm of second order |
| C81 | common entries | link to the position lists; average number of common bits by exchanging sums |
| C82 | average of the recomputed count | tangent of the logarithm for the lower bound; a quadratic bound and the variance of the number of set bits for the upper one |
| C83 C84 C85 | readers and lines over an unreliable medium | simulation of each reader operation by a position in the content, lifted through each `BufReader` layer |
| C86 C87 | the commands over unreliable files | each command run is cut to a prefix of the lines of each file; a cut file is an error of its worker |
| C88 C89 | two processes and one file | an invariant on the file and the two processes: each byte of the filter is the byte of one of at most three filters with the same parameters; a mixture of such files loads to a mixture of their bits |
| C90 C91 | rate and count of almost every filter | Chernoff's method on the number of unset bits (average of `b^zeros` by induction on the positions), bounded differences over the entries for a filter of several buckets |
| C92 C93 | rate under double hashing, of all entries and of short ones | the positions depend on 15 bits of each hash; count the queries that agree with an entry on both; above, two positions of an entry are independent up to a common divisor, so that entries hitting two positions of the query are rare |
| C94 | spread of short entries | bits of `xorshift_star`: below 27 each depends on bits at most 25 higher; multiplication modulo a power of two keeps low bits apart |
| C95 | memory requested by the readers | metered copy of the readers, proved equal to the readers without the meter; longer files never request less |
| C96 | bits visited | metered copies of query and insertion, equal to them without the meter; sizing lemmas of C36 and C77 |
| C97 | FNV-1 on different entries | steps are injective in the state; the state 0 is kept by zero bytes |
| C98 | `println!` of `check` | the bytes that arrived and the buffer are the beginning of what was handed over; induction over interleavings |
| C99 | python/src/lib.rs | a ledger of entries kept from calls and results only; invariant: each object and file is a history containing its entries |
| C100 | sessions of commands and Python | the invariant of C99 extended by `C40_history`; a second one with the exact set of bits |
| C101 | the command line | the scanner computes exactly the relation `laid` of a declarative grammar; numbers by the rounding theorem of Flocq |
| C102 | commands of README.md | from C101 and the theorems on the commands (C44-C47, C57, C59) |
| C103 | DCSO compatibility | two programs related by `twin`; sessions of turns on one file, by induction; words of the file by `words_split`/`words_read` |
| C104 | exit status | `main` as a relation: existence of runs, determinism up to interleaving, `check_worker` result independent of the filter |
| C105 | recomputed counts | one bit more adds at least 1/k to the ideal count, more than twice the error of the computed one |
| C106 | keys of other types | encodings are prefix-free by induction on types; 255 occurs in no UTF-8 text |
| C107 | partial reading | two's complement offsets: the target is the announced length modulo 2^64 |
| C108 | `bench` on average | xor with a uniform byte permutes the bytes; expectations are linear |
| C109 | prepared entries, documentation examples | induction over the prepared list with C26 and the no-false-negative theorem |
| C110 | which strings are text | the share of byte strings that are UTF-8 obeys a recurrence over the first character, bounded by (4/7)^n; averages of C108 |
| C111 | create while the files change | the passes of create over four states of the file system; lemmas of C40, C42, C46 |
| C112 | what bench prints about size and speed | relative error of seconds and quotient; harmonic below arithmetic mean; `stat_mean_R` of C79 |
| C113 | two C libraries | C36 twice; ln of one double to 16 digits by the series of atanh; two libraries that differ at that double |
| C114 | messages of the errors | errors of each function by inversion; texts differ in their first letters; `dec_inj` of C73 |
| C115 | errors the program can end with | inversion of each command with the errors of C114; a filter made by create has a rate equal to itself, so its parts can be merged |
| C69 | `estimated_p` | invariant: the number of hash functions is the best for the capacity; evaluated witness |
| C70 | bucket and cache choice | counting residues and multiplicative shares of the 2^64 values |
| C71 | `bloom!` | insertion of a list whose different values fit |
| C72 C73 | printed text | `half_even` = Flocq's nearest-even rounding; decimal digits read back; lines split at newlines |
| C74 | `Params` | what creation establishes |
| C75 C76 | v1 `bits`; v2 `union`, `intersection` | list of bits by induction; the merge theorems |
| C61 C66 | bench | entries as the longest prefix below the limit; error analysis of the mean rate |

## 5. Findings

Each is proved of the model by the theorem named, with a concrete witness.

**False answers**

1. `bloom/v1.rs:104` `with_capacity` accepts fpp 1.0, which gives a filter of 0 bits: inserting succeeds, the entry
   is not found. (C02_refuted, C06_v1_refuted, C39_refuted, C46_refuted)
2. `bloom/v2.rs:352` `clear` leaves the index cache: with level speed/best and a probability such as 0.8, for which
   there is no hash function inside the bucket, a cleared filter still contains its old entries. With 0.7 the
   cleared filter and a new one answer differently after the same insertion. (C05_refuted, C05_fresh_refuted)
3. `bloom/v2.rs:360` `insert_iter`: with an index cache `Ok(false)` does not mean that the entry was contained: the
   cache bit is set without being counted as new. (C06_refuted)
4. `bloom/v2.rs:281` `make` at level speed/best with a capacity above 2^63: `next_power_of_two` wraps to 0 in release
   builds, and the fresh filter contains everything. (C04_refuted)
5. A v1 file announcing no hash function contains everything, even after `clear`. (C05_v1_loaded_refuted)
6. A loaded v1 filter of more than 2^53 bits: `ceil(bit_size / 64)` is computed in `f64` (`bloom/v1.rs:163`), so the
   words allocated are fewer than the announced bits need: a query panics. (C28_refuted)

**Capacity**

7. `bloom/v2.rs:550` and `bloom/v1.rs:368` `is_full` test `count == capacity`. A union may overshoot; a v2 filter
   then accepts entries again without limit, a v1 filter still refuses but no longer reports full.
   (C11_refuted, C11_v1_refuted)
8. `bin/poppy.rs:232` `parallel_insert` gives each batch the whole remaining capacity: with two jobs the result may exceed
   it. When one batch overflows the command panics in `expect`/`unwrap` (line 272) instead of reporting
   `TooManyEntries`. (C42_refuted, C42_error_refuted)
9. The count saved depends on the number of jobs, and so does whether a later insertion is refused.
   (C64_refuted, C64_full_refuted)
10. `bloom/v2.rs:576` `update_count` takes the logarithm of 0 on a saturated bucket: the estimate is infinite, cast
    to `u64::MAX`, and the next addition overflows: panic in debug builds, wrap in release builds. This is
    reachable without crafted files (probability 0.99; or capacity 3, probability 0.7 and three jobs).
    (C55_refuted, C55_insert_refuted)

**Panics**

11. A 56-byte v2 file announcing buckets beyond `isize::MAX` makes the reader panic. (C21_refuted)
12. A v2 file with no buckets, or a v1 file with no bits but hash functions, loads; the first query divides by zero.
    (C21_v2_ops_refuted, C21_v1_ops_refuted)
13. Creating a filter with a huge capacity panics ("capacity overflow") instead of returning an error; from Python
    too. (C52_capacity_refuted)
14. `bloom/v1.rs:350` `size_in_bytes` is 8 times the number of *bits* (it takes bits for words), and overflows in
    debug builds from 2^61 bits on. (C34_v1_refuted, C23_refuted)
15. `check -j 0` divides by zero, although 0 is documented as "number of CPUs" and is handled elsewhere by
    `optimal_jobs` (`bin/poppy.rs:179`). (C44_refuted)
16. `show` on a 48-byte crafted file overflows a multiplication in debug builds. (C59_debug_refuted)
17. `bench --runs 0` panics. (C66_runs_refuted) Also `ByteSize::from_mb(usize::MAX)` (`utils.rs:78`), the
    default size of bench, overflows. (C51_no_limit_overflows)

**Files**

18. `BufWriter` is dropped without `flush` in `write` (`bloom/v1.rs`, `bloom/v2.rs`): up to 8192 bytes can be lost
    with result `Ok`. (C49_refuted)
19. Saving truncates the file first: a crash leaves an unreadable file or, later, a filter with truncated data.
    (C48_refuted)
20. v1 `write` drops the level byte of a loaded file; the reloaded filter has other parameters, so that a union with its own
    reload fails. (C16_v1_refuted, C17_v1_refuted, C52_refuted)
21. v2 `write` rewrites the reserved bytes and a cache size that is not a multiple of 8.
    (C16_v2_reserved_refuted, C17_v2_refuted)
22. The v1 reader accepts a NaN probability; `has_same_params` is then not reflexive, and merging fails.
    (C15_v1_refuted)
23. `show` reports a truncated file as complete. (C59_refuted)

**Smaller**

24. `unset_nth_bit` (`bitset/array.rs:38`, `bitset/vec.rs:48`) ors a zero mask: it never clears. (C32_refuted)
25. v1 `count_zeros` (`bloom/v1.rs:325`) counts the padding of the last word. (C33_v1_refuted)
26. Positive subnormal probabilities are rejected though the error message says `]0;1]`. (C37_refuted)
27. Three files with two jobs run three threads. (C43_refuted)
28. `check --silent --verify` still prints. (C45_refuted)
29. A final empty line is not an entry, so joining entries with `\n` loses a last empty entry. (C50_refuted)
30. `bench` (`bin/poppy.rs:410`): a condition that mutates no line contributes 0/0, the average is NaN, and any filter passes.
    (C66_refuted) A mutated line that equals an entry is counted as a false positive. (C66_innocent_refuted)
    The roll is `0..=100 < mut_prob`, so "100 %" leaves about 1 % of the lines (C108); xoring the bytes of a `String`
    can make it invalid UTF-8 (C110).
31. Levels speed and best do not keep the requested rate (`bloom/v2.rs:303`): the number of hash functions is multiplied by
    `estimate_p(capacity, cache_bits)`, the rate of a Bloom filter with an optimal number of hash functions, whereas the cache holds
    one position per entry, and the rate of a bucket falls exponentially with that number. 516 entries at 2^-44 (level best): 50 times
    the requested rate; 1032 entries at 2^-22 (level speed): 4 times. (C68_refuted, C68_speed_refuted)
    The rate is at most p^(3/4) for p from 2^-30 to 1/2. (C68_rate_partial)
32. The number of hash functions is rounded up (`bloom/utils.rs:2`), so that a full filter slightly exceeds the requested rate.
    (C67_refuted; C67_v2_rate and C67_v1_rate bound the excess)
33. v1 `estimated_p` (`bloom/v1.rs:131`) uses the number of hash functions that would be best for the current count, not the
    filter's own: one entry in a filter for 100 at 1% gives an estimate below 2^-660 instead of about 2^-50. (C69_refuted)
34. One byte less than a megabyte prints as `1024.0KB` (`utils.rs:52`): the unit is chosen before rounding. (C72_unit_refuted)
35. `show` does not print the optimisation level, although `OptLevel` has a Display for it. (C73_level_refuted)
36. `Params::try_into_v1` and `try_into_v2` (`bloom.rs:165`) disregard the version, and the first also the level, that the
    parameters ask for. (C74_version_refuted)
37. Above 1/2, levels speed and best may use no hash function: 1000 entries at 0.9. (C77_refuted)
38. In a v1 filter whose number of bits is a power of two the first position of an entry determines the others, so that it
    works as with a single hash function (`v1.rs:58`: `wrapping_mul` reduces modulo 2^64 before the reduction modulo the prime
    that the comment at `v1.rs:15` relies on). 109397 entries at 1% give a rate above 9%. In general the last `a` bits of the
    positions are tied together when 2^a divides the number of bits. The test `test_show_bug_in_v1` measures the effect.
    (C78_refuted, C78_rate_refuted, C78_comment_refuted)
39. `benchmark` can discard all its runs as outliers and then panics on the mean of nothing (`utils.rs:147-157`): with rounding
    errors the computed standard deviation can be zero while no run equals the computed mean. Three runs of 34 days suffice.
    With the default 50 runs of at most 262 seconds it cannot happen. (C79_refuted, C79_runs)
40. The count that a v1 union recomputes is truncated, and in large filters rounding in `1.0 - x / m` can bring it below the number
    of entries even when there is no collision: at 792041189 bits (capacity 82632902, rate 0.01) the union of an empty filter with a
    filter of one entry has count 0 (`v1.rs:331`). Up to 2^22 bits per position set the count of few entries is exact.
    (C80_v1_refuted, C80_v1_exact_partial)
41. `count_common_entries` counts the bits that two filters have in common by chance as common entries (`v1.rs:403`,
    `v2.rs:564`). Two v2 buckets filled to their capacity at rate 0.01 (3418 entries) with different entries are on average reported
    to share at least 1169 entries. An estimate that subtracts what chance explains would have to use the counts of both
    filters. (C81_refuted, C81_average_full)
42. `poppy create FILE DIR` with a directory as dataset never ends: `File::open` opens a directory, each read of it fails, and
    `lines().count()` (`bin/poppy.rs:205`) counts failures as lines for ever. `insert` and `check` report the error. A transient
    failure is counted as a line, so that the capacity is larger than the number of lines although `create` succeeds.
    (C85_broken_count, C85_refuted, C86_refuted)
43. The CLI locks nothing and rewrites filter files in place (`bin/poppy.rs:331-334`). Two `insert` at the same time can both
    succeed although the lines of one of them are lost. If one of the two is killed, the other can report success and leave a
    file with a hole of zeros in the bits, that loads and has lost entries it had before: false negatives. A reader never sees
    such a filter while only one process writes, but can get the filter without its attached data, without any error. Writing to
    another file and renaming it would avoid the last two. (C88_refuted, C89_refuted, C89_killed_refuted)
44. Double hashing in buckets of 2^15 bits (`v2.rs:92-121`) uses 15 bits of each of two hashes, so the positions of an entry take
    at most 2^30 values and the rate of a filter of `b` buckets with `n` entries cannot fall below about `n/(b 2^30)`, however many
    hash functions are used. Every filter for a rate of at most 2^-22 (2.4e-7) exceeds it, at 2^-30 by a factor of 700. `new` accepts
    such rates without a warning. For rates from 1/1000 to 1/2 double hashing does no harm. (C92_floor, C92_every, C92_refuted,
    C92_common)
45. Slices of at most eight bytes are not hashed (`hash.rs:52-63`), so one of the two hashes is the entry itself and its part that
    matters for the positions is the first two bytes. Entries that agree on these (dates, numbers, common prefixes) differ
    in 15 bits only: at a requested rate of 1% a full bucket has over 9%. Python's `insert_bytes` and lines of a file on the
    command line go that way. With the real wyhash a filter for a rate of 2^-30 that holds only `20200312` contains
    `20200506`. (C93_first, C93_every, C93_refuted, C93_dates)
46. `xorshift_star` (`v2.rs:30-36`) moves bits down by 25 only, so with 2^j buckets the low j + 25 bits of the first hash decide
    the bucket. For entries of at most eight bytes, which are not hashed, these are the first four bytes for up to 128 buckets
    and the first five for up to 32768; level speed always has 2^j buckets. All dates of a year fall in one bucket of such a filter
    and the others stay empty; with five common bytes they also share one bit of a cache of up to 32768 bits. A filter for 32768
    entries at 1% then has a rate above 60%. Taking the high bits, or hashing short entries too, would avoid it.
    (C94_bucket, C94_cache, C94_speed, C94_answer, C94_refuted, C94_dates)
47. The readers allocate what the header announces before reading it (`v2.rs:217-234`, `v1.rs:183-195`). A file of 56 bytes makes
    `poppy` request any number of bytes up to isize::MAX, and `vec![Bucket::new(); n]` writes them all; when the allocation fails the
    process aborts. `show`, which reads the header only, is not affected. Growing the vector while reading would bound it.
    (C95_loaded, C95_show, C95_refuted)
48. The number of hash functions of a file is not checked. A file of 4152 bytes, 56 for version 1, makes each query loop up to 2^64
    times; no constructor makes more than 1033. (C96_created_v2, C96_created_v1, C96_refuted)
49. FNV-1 as used by version 1 has the value 0 for the nine bytes 92 06 77 4c e0 2f 89 2a d2 (hexadecimal) and keeps it when zero
    bytes follow. Entries that begin so and differ only in the number of zeros that come next are one entry to every version 1 filter,
    whatever its size; those that consist of nothing else ask for bit 0 of the filter only. This is a property of the format (DCSO
    filters have it too). With the WyHash of Ex_Wyhash.v there is a similar family for version 2; as that definition is written
    from memory nothing is claimed of the crate. (C97_family, C97_one_bit, C97_refuted, C97_v2_reference)
50. When a write to standard output fails, `println!` panics and `check` ends with a failure; but the other threads go on, and if
    later writes succeed (a full disk that is freed) the next line is glued to the part of the line that arrived: a line that nobody
    asked for, printed as found. It takes several jobs and a line of 1024 bytes, or an empty one with `--verify`; shorter lines stay
    whole in the buffer. An output that is not open for writing makes `check` succeed with nothing printed. Both come from std.
    (C98_success_partial, C98_dead_partial, C98_short_partial, C98_refuted, C98_closed_refuted)
51. In Python `f.union_merge(f)` raises RuntimeError (the object is already borrowed) and changes nothing, while the Rust library
    cannot even express it and `f.count_common_entries(f)` works; harmless, but not a ValueError as all other refusals. (C99_self)
52. README.md:87 says `poppy create help` prints the help of create; it makes a filter of 10000 entries in a file called `help`, or
    refuses when such a file exists and is no filter. `poppy -j 0 check filter.pop data-1.txt data-2.txt` (README.md:148) always
    panics (finding 15). (C102_help_refuted, C102_check_refuted)
53. The v1 filter and the DCSO library differ in three places: a new value is refused here and accepted there once the count has
    reached the capacity; a filter announcing no bits answers no here, while the library answers yes or crashes; a second header
    byte above 3 is refused here and ignored there. (C103_full, C103_no_bits, C103_read)
54. The exit status of `check` says nothing about the answers: it is 0 whether all, some or no lines are in the filter, with `--verify`
    too. `check --silent` prints nothing either, so apart from unreadable files such a run carries no information at all.
    (C104_blind, C104_silent)
55. `insert` can end with status 0 having erased the filter, when the disk is full and the file is smaller than 8 KiB (consequence of
    C49_refuted). (C104_saved_refuted)
56. A union can count less than an operand: a v2 filter (error rate 0.01) holding only "amg" counts 1; after merging an empty filter
    into it, it counts 0 and still contains "amg" (two of its seven positions coincide, and the estimate is truncated).
    (C105_operand_refuted)
57. Filters with integers or options as entries are not portable: the default `hash_pop` goes through `Hash`, which writes integers
    in the byte order of the machine and discriminants as words of its pointer size. The entry 1u32 inserted on a
    little-endian machine is not found on a big-endian one. Byte strings and texts are portable. (C106_portable_refuted)
58. A v2 file announcing 2^52 - 1 buckets opens partially (the `show` command) in both builds: the distance 2^64 - 4096 becomes
    -4096 as i64, the reader moves backwards and reports its own index cache as attached data. (C107_v2_refuted)
59. `bench` prints that 0% of the queried values are in the filter when on average one of 101 is: `gen_range(0..=100)`
    draws from 101 numbers (`bin/poppy.rs:490`). And since a mutated line is any byte string of its length, entries
    included, a dataset of one-byte lines makes every filter look bad: almost half of the mutated lines count as false
    positives. (C108_share_refuted, C108_letters)
60. Input that is not text ends `check` with a panic (status 101) when it comes from standard input and with an error
    (status 1) when it is in a file; for `insert` it is the other way round. (C104_garbled, C104_garbled_file,
    C104_garbled_insert, `bin/poppy.rs:327, 347, 384, 405, 272`)
61. Bench builds Strings that are not UTF-8 (`bin/poppy.rs:492-495`): `unsafe { e.as_bytes_mut() }` followed by a xor with random bytes breaks the
    condition under which that function may be called. It is the rule rather than the exception: of the mutated lines of 64 bytes at most one in 10^15 is
    still text on average. Nothing reads the characters of these lines, so no result depends on it. (C110_refuted, C110_each, C110_mutated)
62. Create trusts what it saw earlier (`bin/poppy.rs:292-295, 304, 316-317`). A dataset that grows between counting and inserting (a log file) makes it
    panic with one job; with several jobs each copy has the whole capacity, so a filter with more entries than it was made for is written without a
    word. A file that appears at the output path after the check is emptied, although the check is there to prevent that.
    (C111_grown_refuted, C111_over_refuted, C111_output_refuted)
63. What bench prints about size and speed flatters (`bin/poppy.rs:464, 472, 554`). A test size above the number of entries is printed as if so many
    lines had been queried. The average is taken over speeds, not times, so fast conditions dominate: nine conditions of 1 s and one of 1000 s give 900
    queries per second for an overall speed below 10. A time of zero in the first condition gives NaN.
    (C112_size_refuted, C112_average_refuted, C112_zero_refuted)
64. The shape of a filter depends on the last bit of `ln` (`bloom/utils.rs:6-24`), which Rust does not specify. With 3245 entries at rate 0.007815760132910994
    two C libraries that differ by one unit in the last place, both within one unit of the exact value, give one bucket or two in version 2 and 32767 or
    32768 bits in version 1. Such filters refuse to merge, although they were made with the same arguments. (C113_v1_refuted, C113_v2_refuted)
65. Two messages say what is not so (`bloom.rs:98-115`). `count_common_entries` on filters of different parameters fails with "union error: ...", though
    nothing is united. A rate that is subnormal is refused with "fpp value must be in ]0;1]", where it is. (C114_union_refuted, C114_fpp_refuted)
66. `insert` of two files into a version 1 filter file with a NaN rate ends with the error of merging filters of different parameters, while
    inserting one file succeeds: the copies are compared with each other (`bin/poppy.rs:275-279`) and NaN differs from itself. Lines that do not fit
    are an error when they come from standard input and a panic when they come from a file. (C115_merge_refuted, C115_full_refuted)

## 6. Mutation testing

The model was challenged with wrong programs: one definition of `M_*.v` is edited in a copy outside `/verif`, the whole
development is rebuilt with the broken proofs admitted one at a time, and the theorems that depend on an admitted
proof are the ones the edit breaks. `seeded/LOG.jsonl` has one line per attempt: the definition, the edit, the claim the edit makes
false, the theorems that failed, and the theorems added or tightened when a wrong program survived.

How to read the list of failed theorems. For the ids beginning with a, d, g and the other smaller campaigns (single files, generated edits)
the run stops at the first proof that breaks, and the list has the theorems that depend on it by the references recorded by coqc: more may be
false, and these were not each seen to fail. For e01 to e27 and k the broken proofs were
admitted one at a time in the files that use the definition directly, and the list has each proof seen to break, lemmas included. In
all campaigns a broken proof shows that the proof noticed the edit, which usually but not always means that its statement became false: a
proof that writes out a constant (LINE_CAP, for example) breaks also when the statement stays true. Runs that ended by a time or memory limit
are not counted as failures of a theorem.

## 7. Assumptions of each theorem

As printed by `Print Assumptions`. "closed" means "Closed under the global context". The letters are: `D` =
`ClassicalDedekindReals.sig_forall_dec`, `N` = `ClassicalDedekindReals.sig_not_dec`, `F` =
`FunctionalExtensionality.functional_extensionality_dep`, `C` = `Classical_Prop.classic`.
* **closed**: C02_refuted, C03_v2_exact, C04_refuted, C05_fresh_refuted, C05_refuted, C05_v1_loaded_refuted, C06_refuted, C06_v1_refuted, C08_v2_count, C09_v2_capacity, C101_bench, C101_check, C101_create, C101_insert, C101_names, C101_options, C101_order, C101_ranged, C101_show, C101_touch, C101_usize, C103_add, C103_full, C103_join, C104_bench, C104_ends, C104_failed, C104_files, C104_garbled, C104_missing, C104_saved_partial, C104_saved_refuted, C104_schedule, C104_silent, C105_operand_refuted, C106_collision, C106_fed, C106_here, C106_portable_refuted, C106_prefix, C107_v2_refuted, C110_each, C110_entries, C110_lines, C110_refuted, C111_failed, C111_grown_refuted, C111_output_refuted, C111_over_refuted, C112_queried, C112_size_refuted, C112_zero_refuted, C113_same_cache_partial, C113_same_partial, C113_v1_merge, C113_v2_merge, C114_fpp_refuted, C114_tell, C114_union_refuted, C115_create, C115_full_refuted, C115_merge_refuted, C115_named, C11_refuted, C11_v1_refuted, C12_v2_union_is_insertion, C15_v1_equivalence_partial, C15_v1_refuted, C16_v1_refuted, C16_v2_built, C16_v2_reserved_refuted, C17_v1_identity_partial, C17_v1_refuted, C17_v2_refuted, C18_trailing, C18_v1_trailing, C18_v2_trailing, C18_written, C19_v2_truncated, C20_accepted, C20_rejected, C20_short, C21_refuted, C21_v1_ops_refuted, C21_v2_ops_refuted, C24_same_calls, C25_equal_length, C25_short_keys, C25_zero_padding, C26_prepared, C26_unprepared, C26_used, C27_fnv1, C27_fnv1_one, C29_iterator, C30_injective, C30_onto, C30_range, C31_clear, C31_get, C31_get_set, C31_set, C32_refuted, C32_unset_partial, C33_bitset, C33_common, C33_v1_refuted, C34_v1_refuted, C37_domain_partial, C37_reader, C37_reader_accepts, C37_refuted, C39_fill_iff, C39_refuted, C40_history, C41_any_schedule, C41_deterministic, C41_run_exists, C41_terminates, C42_batch_partial, C42_error_refuted, C42_one_batch_partial, C42_refuted, C43_batches, C43_count_partial, C43_enough, C43_jobs, C43_refuted, C43_unknown, C45_answer, C45_bad_input, C45_silent_partial, C45_sound, C46_refuted, C47_create, C47_insert, C47_insert_fails, C48_refuted, C49_enough, C49_err, C49_ok_partial, C49_prefix, C49_refuted, C50_empty, C50_invalid, C50_join_partial, C50_lines, C50_refuted, C50_unlines, C51_from_bits, C51_from_bytes, C51_from_mb, C51_no_limit_overflows, C51_order, C52_capacity_refuted, C52_parameters, C52_refuted, C53_constructor, C53_operations, C55_insert_refuted, C56_v1_data, C56_v2_data, C58_check, C58_create, C58_created, C58_insert, C58_programs, C58_show, C59_debug_refuted, C59_refuted, C61_accepts, C61_entries, C62_missing, C64_any_jobs, C64_full_refuted, C64_refuted, C65_lines, C66_innocent_refuted, C66_missing, C66_runs_refuted, C67_v2_answer, C68_answer, C70_bucket_share, C70_cache_share, C71_macro_panics, C72_unit_refuted, C73_level_names, C73_level_refuted, C73_show_text, C74_builder, C74_version_refuted, C75_bits, C78_comment_refuted, C78_exceptions, C78_low_bits, C78_one_position, C78_refuted, C79_no_runs, C79_refuted, C81_refuted, C81_v2_answer, C82_v2_answer, C83_load, C83_v1, C83_v2, C84_broken, C84_load, C85_broken_count, C85_count_least, C85_each, C85_lines, C85_refuted, C86_create, C86_create_possible, C86_insert, C86_insert_possible, C86_refuted, C87_ok, C87_possible, C87_sound, C88_refuted, C89_killed_refuted, C89_refuted, C90_v2_answer, C92_answer, C92_twin, C93_answer, C93_first, C94_answer, C94_bucket, C94_cache, C94_low_bits, C94_prefix, C94_speed, C95_cut, C95_loaded, C95_same, C95_show, C96_same, C96_v1, C96_v2_contains, C96_v2_insert, C97_append_zero, C97_extend, C97_family, C97_one_byte, C97_refuted, C97_same_hash, C97_v2_reference, C98_dead_partial, C98_one_thread_partial, C98_reliable, C98_short_partial, C98_success_partial, C99_load, C99_local, C99_self.
* **CDFN**: C01_no_false_negatives, C01_v2_no_false_negatives, C02_v1_no_false_negatives_partial, C03_v1_bits, C03_v1_exact, C03_v2_bits, C04_v1_fresh_empty, C04_v2_created_usable, C04_v2_fresh_empty_partial, C05_v1_clear, C05_v1_clear_is_fresh, C05_v2_clear_is_fresh, C05_v2_clear_partial, C06_v1_insert_bool_partial, C06_v2_insert_bool_nocache, C06_v2_insert_bool_partial, C07_v1_idempotent, C07_v2_idempotent, C08_v1_count, C09_v1_capacity, C100_check_partial, C100_empty, C100_exact, C100_files_partial, C100_ledger, C100_loads, C100_objects_partial, C101_every_double, C101_float, C101_recreate, C101_verify, C102_check, C102_check_refuted, C102_check_zero, C102_dataset, C102_help_refuted, C102_insert, C102_new, C103_alone, C103_check, C103_interchange, C103_kept, C103_no_bits, C103_read, C103_write, C104_blind, C104_garbled_file, C104_garbled_insert, C105_v1, C105_v1_common, C105_v1_steps, C105_v2, C105_v2_common, C105_v2_steps, C106_portable, C107_v1, C107_v2_mod, C107_v2_partial, C109_documented, C109_prepared, C109_prepared_new, C10_v1_failed_insert, C10_v2_failed_insert, C111_contained, C111_fits_partial, C111_one_batch, C112_average, C112_printed, C112_zero, C113_v1_close, C113_v1_refuted, C113_v2_close, C113_v2_refuted, C114_blames, C114_read, C115_bench, C115_reports, C11_v1_capacity_partial, C11_v2_capacity_partial, C12_v1_union, C12_v1_union_associative, C12_v1_union_commutative, C12_v1_union_idempotent, C12_v1_union_is_insertion, C12_v2_union, C12_v2_union_associative, C12_v2_union_commutative, C12_v2_union_idempotent, C13_v2_intersection, C14_v1_merge, C14_v2_common, C14_v2_merge, C15_v2_equivalence, C16_v1_built, C16_v1_roundtrip_partial, C16_v2_roundtrip, C17_v1_written, C17_v2_identity_partial, C17_v2_written, C19_truncated, C19_v1_truncated, C19_written, C21_reader_partial, C21_v1_ops_partial, C21_v2_ops_partial, C22_partial_read, C23_refuted, C23_v1_make_succeeds, C23_v1_no_panic_partial, C23_v2_make_succeeds, C23_v2_no_panic, C23_v2_no_panic_any_libm, C24_found, C28_refuted, C28_v1_positions, C28_v1_positions_loaded_partial, C29_filter, C33_v1_partial, C33_v2, C34_v1_size_partial, C34_v2_size, C35_v2_geometry, C36_v1_size, C36_v2_bucket_capacity, C36_v2_size, C37_constructors, C38_v1_order, C38_v2_order, C38_v2_permutation, C39_fill_partial, C40_nothing_lost, C42_exact, C44_jobs_partial, C44_refuted, C44_zero, C45_prints, C45_refuted, C46_create_partial, C46_never_full, C47_create_fails, C48_crash_partial, C48_no_data, C48_save_ok, C52_created, C52_roundtrip_partial, C53_version_byte, C54_v1_common, C54_v1_common_bits, C54_v2_common, C54_v2_common_is_intersection, C55_refuted, C55_v1_merge, C55_v2_merge_partial, C56_v1_data_kept, C56_v2_data_kept, C57_insert, C57_succeeds, C59_show, C59_show_v2, C60_counts, C60_rate, C61_filter, C62_python_files, C63_create_check, C63_insert_check, C65_rate, C66_refuted, C66_verdict_partial, C67_refuted, C67_v1_answer, C67_v1_rate, C67_v2_bucket, C67_v2_rate, C67_v2_rate_fine, C68_rate_partial, C68_refuted, C68_speed_refuted, C69_estimated_p_partial, C69_refuted, C70_cache_fixes_bucket, C71_macro_ok, C71_macro_result, C72_in_mb, C72_size_order, C72_size_text, C73_show_output, C74_conversion, C75_bits_of_entries, C76_by_value, C77_hash_functions, C78_accepts, C78_rate_refuted, C79_between, C79_runs, C79_single, C80_v1_exact_partial, C80_v1_merge, C80_v1_refuted, C80_v2_exact, C80_v2_lower, C80_v2_merge, C81_average, C81_average_full, C81_v1_answer, C81_v2_counted, C82_v1_answer, C82_v1_average, C82_v2_average, C82_v2_filter_lower, C82_v2_lower, C86_create_complete, C88_reader, C88_writer, C89_partial, C90_v1, C90_v1_three, C90_v2_bucket, C90_v2_filter, C91_v1, C91_v2_bucket, C92_common, C92_every, C92_refuted, C93_every, C93_refuted, C94_refuted, C95_refuted, C96_created_cached, C96_created_v1, C96_created_v2, C96_refuted, C97_one_bit, C98_closed_refuted, C98_refuted, C99_common, C99_errors, C99_found_partial, C99_monotone, C99_new, C99_parameters, C99_refused.
* **DF**: C101_float_only, C108_entries, C108_found, C108_letters, C108_mutated, C108_share, C108_share_refuted, C108_uniform, C110_mutated, C110_share, C112_average_refuted, C77_refuted, C90_v2_average, C92_floor, C92_upper, C93_floor.
