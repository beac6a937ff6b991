{
 "claims": [
  {
   "property": "C01",
   "status": "proved",
   "theorems": [
    "C01_no_false_negatives",
    "C01_v2_no_false_negatives"
   ],
   "note": "All call trees (v1, v2 and the generic filter), arbitrary hash oracle and math library."
  },
  {
   "property": "C02",
   "status": "partial",
   "theorems": [
    "C02_v1_no_false_negatives_partial",
    "C02_refuted"
   ],
   "note": "Refuted for accepted parameters whose bit size computes to 0 (capacity 10, fpp 1.0); proved for every other filter and history."
  },
  {
   "property": "C03",
   "status": "proved",
   "theorems": [
    "C03_v1_exact",
    "C03_v1_bits",
    "C03_v2_exact",
    "C03_v2_bits"
   ],
   "note": "v1 and v2."
  },
  {
   "property": "C04",
   "status": "partial",
   "theorems": [
    "C04_v1_fresh_empty",
    "C04_v2_fresh_empty_partial",
    "C04_v2_created_usable",
    "C04_refuted"
   ],
   "note": "v1 proved. v2 false for capacity above 2^63 at level speed/best in release builds (C04_refuted)."
  },
  {
   "property": "C05",
   "status": "partial",
   "theorems": [
    "C05_v1_clear",
    "C05_v1_clear_is_fresh",
    "C05_v1_loaded_refuted",
    "C05_v2_clear_partial",
    "C05_v2_clear_is_fresh",
    "C05_refuted",
    "C05_fresh_refuted"
   ],
   "note": "v2 clear does not clear the index cache: refuted for fpp 0.8 at level speed; proved when there is at least one hash function. v1 proved for every filter built by the library; a foreign file with no hash function contains everything."
  },
  {
   "property": "C06",
   "status": "partial",
   "theorems": [
    "C06_v1_insert_bool_partial",
    "C06_v1_refuted",
    "C06_v2_insert_bool_partial",
    "C06_v2_insert_bool_nocache",
    "C06_refuted"
   ],
   "note": "v2: refuted for filters with an index cache, full statement proved without. v1: proved except for filters of zero bits."
  },
  {
   "property": "C07",
   "status": "proved",
   "theorems": [
    "C07_v1_idempotent",
    "C07_v2_idempotent"
   ],
   "note": "v1 and v2, in any reachable state, full or not."
  },
  {
   "property": "C08",
   "status": "proved",
   "theorems": [
    "C08_v1_count",
    "C08_v2_count"
   ],
   "note": "v1 and v2."
  },
  {
   "property": "C09",
   "status": "proved",
   "theorems": [
    "C09_v1_capacity",
    "C09_v2_capacity"
   ],
   "note": "v1 and v2."
  },
  {
   "property": "C10",
   "status": "proved",
   "theorems": [
    "C10_v1_failed_insert",
    "C10_v2_failed_insert"
   ],
   "note": "v1 and v2."
  },
  {
   "property": "C11",
   "status": "partial",
   "theorems": [
    "C11_v1_capacity_partial",
    "C11_v1_refuted",
    "C11_v2_capacity_partial",
    "C11_refuted"
   ],
   "note": "v2 refuted: is_full tests equality, so a union that overshoots the capacity reopens the filter. v1 keeps refusing entries but no longer reports full."
  },
  {
   "property": "C12",
   "status": "proved",
   "theorems": [
    "C12_v1_union",
    "C12_v1_union_commutative",
    "C12_v1_union_associative",
    "C12_v1_union_idempotent",
    "C12_v1_union_is_insertion",
    "C12_v2_union",
    "C12_v2_union_commutative",
    "C12_v2_union_associative",
    "C12_v2_union_idempotent",
    "C12_v2_union_is_insertion"
   ],
   "note": "v1 and v2."
  },
  {
   "property": "C13",
   "status": "proved",
   "theorems": [
    "C13_v2_intersection"
   ],
   "note": "v2 only: v1 has no intersection."
  },
  {
   "property": "C14",
   "status": "proved",
   "theorems": [
    "C14_v1_merge",
    "C14_v2_merge",
    "C14_v2_common"
   ],
   "note": "v1 and v2; the only panic of a v2 merge is the overflow of the sum of estimates (C55)."
  },
  {
   "property": "C15",
   "status": "partial",
   "theorems": [
    "C15_v1_equivalence_partial",
    "C15_v1_refuted",
    "C15_v2_equivalence"
   ],
   "note": "v2 proved. v1: not reflexive for a NaN fpp, which the v1 reader accepts."
  },
  {
   "property": "C16",
   "status": "partial",
   "theorems": [
    "C16_v2_roundtrip",
    "C16_v2_built",
    "C16_v1_roundtrip_partial",
    "C16_v1_built",
    "C16_v1_refuted",
    "C16_v2_reserved_refuted"
   ],
   "note": "v2: every field but the reserved header bytes, for every reachable filter. v1: the level byte of a loaded file is lost (C16_v1_refuted). Filters made by the library come back identical."
  },
  {
   "property": "C17",
   "status": "partial",
   "theorems": [
    "C17_v2_identity_partial",
    "C17_v2_written",
    "C17_v2_refuted",
    "C17_v1_identity_partial",
    "C17_v1_written",
    "C17_v1_refuted"
   ],
   "note": "Exact conditions proved. v1: a non-zero level byte is rewritten; v2: an announced cache size not a multiple of 8 is rewritten."
  },
  {
   "property": "C18",
   "status": "proved",
   "theorems": [
    "C18_v2_trailing",
    "C18_v1_trailing",
    "C18_trailing",
    "C18_written"
   ],
   "note": "v1, v2 and the generic reader, for every accepted file and every suffix."
  },
  {
   "property": "C19",
   "status": "proved",
   "theorems": [
    "C19_v2_truncated",
    "C19_v1_truncated",
    "C19_truncated",
    "C19_written"
   ],
   "note": "v1, v2 and the generic reader, every cut point of every accepted file."
  },
  {
   "property": "C20",
   "status": "proved",
   "theorems": [
    "C20_accepted",
    "C20_rejected",
    "C20_short"
   ],
   "note": ""
  },
  {
   "property": "C21",
   "status": "partial",
   "theorems": [
    "C21_reader_partial",
    "C21_refuted",
    "C21_v2_ops_partial",
    "C21_v2_ops_refuted",
    "C21_v1_ops_partial",
    "C21_v1_ops_refuted"
   ],
   "note": "v1 reader proved. v2 reader panics on exactly the files announcing buckets beyond isize::MAX (C21_refuted). Operations on loaded filters: refuted for files without buckets / bits; proved otherwise. Allocation failure is outside the model."
  },
  {
   "property": "C22",
   "status": "proved",
   "theorems": [
    "C22_partial_read"
   ],
   "note": "v1 and v2."
  },
  {
   "property": "C23",
   "status": "partial",
   "theorems": [
    "C23_v2_no_panic",
    "C23_v2_no_panic_any_libm",
    "C23_v2_make_succeeds",
    "C23_v1_no_panic_partial",
    "C23_refuted",
    "C23_v1_make_succeeds"
   ],
   "note": "v2 proved for every filter whose creation succeeded; creation proved to succeed for capacities below 2^53 (panics for some beyond, see example). v1: only size_in_bytes can panic, exactly in debug builds from 2^61 bits on."
  },
  {
   "property": "C24",
   "status": "proved",
   "theorems": [
    "C24_same_calls",
    "C24_found"
   ],
   "note": "For every WyHash and key; all byte-string entry points hash the same call sequence."
  },
  {
   "property": "C25",
   "status": "proved",
   "theorems": [
    "C25_short_keys",
    "C25_equal_length",
    "C25_zero_padding"
   ],
   "note": ""
  },
  {
   "property": "C26",
   "status": "proved",
   "theorems": [
    "C26_prepared",
    "C26_unprepared",
    "C26_used"
   ],
   "note": ""
  },
  {
   "property": "C27",
   "status": "proved",
   "theorems": [
    "C27_fnv1",
    "C27_fnv1_one"
   ],
   "note": ""
  },
  {
   "property": "C28",
   "status": "partial",
   "theorems": [
    "C28_v1_positions",
    "C28_v1_positions_loaded_partial",
    "C28_refuted"
   ],
   "note": "Proved for created filters without restriction and for loaded filters up to 2^53 bits; C28_refuted shows a loaded filter above 2^53 bits that sets a position out of its range."
  },
  {
   "property": "C29",
   "status": "proved",
   "theorems": [
    "C29_iterator",
    "C29_filter"
   ],
   "note": ""
  },
  {
   "property": "C30",
   "status": "proved",
   "theorems": [
    "C30_injective",
    "C30_onto",
    "C30_range"
   ],
   "note": ""
  },
  {
   "property": "C31",
   "status": "proved",
   "theorems": [
    "C31_set",
    "C31_get",
    "C31_get_set",
    "C31_clear"
   ],
   "note": "Both bit set types."
  },
  {
   "property": "C32",
   "status": "partial",
   "theorems": [
    "C32_unset_partial",
    "C32_refuted"
   ],
   "note": "Refuted: unset_nth_bit ors a zero mask and changes nothing; the returned value and the other bits are proved."
  },
  {
   "property": "C33",
   "status": "partial",
   "theorems": [
    "C33_bitset",
    "C33_common",
    "C33_v2",
    "C33_v1_partial",
    "C33_v1_refuted"
   ],
   "note": "v2 and bit sets proved. v1 count_zeros also counts the padding of the last word."
  },
  {
   "property": "C34",
   "status": "partial",
   "theorems": [
    "C34_v2_size",
    "C34_v1_size_partial",
    "C34_v1_refuted"
   ],
   "note": "v2 proved. v1 size_in_bytes is 8 times the number of bits (refuted)."
  },
  {
   "property": "C35",
   "status": "proved",
   "theorems": [
    "C35_v2_geometry"
   ],
   "note": "Capacities below 2^53, where the conversion to f64 is exact; needs ln/powf within the stated ranges, which the correctly rounded library meets."
  },
  {
   "property": "C36",
   "status": "proved",
   "theorems": [
    "C36_v2_size",
    "C36_v2_bucket_capacity",
    "C36_v1_size"
   ],
   "note": "Up to a relative error of 2^-48 for any libm within 2^-50 of the real functions."
  },
  {
   "property": "C37",
   "status": "partial",
   "theorems": [
    "C37_domain_partial",
    "C37_constructors",
    "C37_reader",
    "C37_reader_accepts",
    "C37_refuted"
   ],
   "note": "Positive subnormals are rejected (C37_refuted); everything else proved."
  },
  {
   "property": "C38",
   "status": "proved",
   "theorems": [
    "C38_v2_order",
    "C38_v2_permutation",
    "C38_v1_order"
   ],
   "note": "v1 and v2; any two lists with the same members, permutations included."
  },
  {
   "property": "C39",
   "status": "partial",
   "theorems": [
    "C39_fill_partial",
    "C39_fill_iff",
    "C39_refuted"
   ],
   "note": "Refuted only for v1 filters without bits (fpp 1.0), where an inserted entry is not found; everything else proved."
  },
  {
   "property": "C40",
   "status": "proved",
   "theorems": [
    "C40_nothing_lost",
    "C40_history"
   ],
   "note": "Bits equal those of sequential insertion whenever that succeeds; the count may differ (union re-estimates it)."
  },
  {
   "property": "C41",
   "status": "proved",
   "theorems": [
    "C41_any_schedule",
    "C41_deterministic",
    "C41_terminates",
    "C41_run_exists"
   ],
   "note": "Every complete interleaving gives the sequential outcome; no infinite schedule and no deadlock."
  },
  {
   "property": "C42",
   "status": "partial",
   "theorems": [
    "C42_one_batch_partial",
    "C42_batch_partial",
    "C42_exact",
    "C42_refuted",
    "C42_error_refuted"
   ],
   "note": "False with several batches, whose union exceeds the capacity (C42_refuted); and the failure is a panic of expect, not TooManyEntries (C42_error_refuted). Proved for one batch and for a batch that alone overflows."
  },
  {
   "property": "C43",
   "status": "partial",
   "theorems": [
    "C43_batches",
    "C43_count_partial",
    "C43_enough",
    "C43_refuted",
    "C43_jobs",
    "C43_unknown"
   ],
   "note": "Batches proved; more jobs than requested can be used, e.g. 3 files with 2 jobs give 3 batches (C43_refuted). Proved fewer than twice the requested number, and at most it when jobs divides or exceeds the files."
  },
  {
   "property": "C44",
   "status": "partial",
   "theorems": [
    "C44_jobs_partial",
    "C44_zero",
    "C44_refuted"
   ],
   "note": "jobs = 0 divides by zero in check (C44_refuted). Every other value works."
  },
  {
   "property": "C45",
   "status": "partial",
   "theorems": [
    "C45_prints",
    "C45_answer",
    "C45_sound",
    "C45_bad_input",
    "C45_silent_partial",
    "C45_refuted"
   ],
   "note": "Printed lines proved for all schedules and flags; --silent with --verify still prints (C45_refuted)."
  },
  {
   "property": "C46",
   "status": "partial",
   "theorems": [
    "C46_create_partial",
    "C46_never_full",
    "C46_refuted"
   ],
   "note": "Never TooManyEntries, for any arguments. Success, capacity and content proved for fewer than 2^53 lines; v1 with probability 1.0 contains nothing (C46_refuted); a debug build may panic merging v2 filters."
  },
  {
   "property": "C47",
   "status": "proved",
   "theorems": [
    "C47_create",
    "C47_insert",
    "C47_create_fails",
    "C47_insert_fails"
   ],
   "note": "Each listed failure leaves every file unchanged; a failing command that changed the file failed while saving."
  },
  {
   "property": "C48",
   "status": "partial",
   "theorems": [
    "C48_crash_partial",
    "C48_no_data",
    "C48_refuted",
    "C48_save_ok"
   ],
   "note": "The file is truncated first: a crash leaves an unreadable prefix (C48_refuted), or a filter with truncated data. Proved: what exactly can be left, and that a completed save loads back."
  },
  {
   "property": "C49",
   "status": "partial",
   "theorems": [
    "C49_prefix",
    "C49_enough",
    "C49_ok_partial",
    "C49_err",
    "C49_refuted"
   ],
   "note": "The buffered writer is dropped without flush: Ok with up to 8192 bytes lost (C49_refuted). Prefix proved; enough room proved."
  },
  {
   "property": "C50",
   "status": "partial",
   "theorems": [
    "C50_lines",
    "C50_empty",
    "C50_invalid",
    "C50_unlines",
    "C50_join_partial",
    "C50_refuted"
   ],
   "note": "Proved; the join clause fails when the last entry is empty (C50_refuted), C50_unlines covers terminated entries."
  },
  {
   "property": "C51",
   "status": "proved",
   "theorems": [
    "C51_from_bytes",
    "C51_order",
    "C51_from_bits",
    "C51_from_mb",
    "C51_no_limit_overflows"
   ],
   "note": "Also: the benchmark's unlimited size overflows (C51_no_limit_overflows), which is outside the property."
  },
  {
   "property": "C52",
   "status": "partial",
   "theorems": [
    "C52_roundtrip_partial",
    "C52_created",
    "C52_refuted",
    "C52_parameters",
    "C52_capacity_refuted"
   ],
   "note": "Python level. v1 level byte of a loaded file makes union with its own reload fail; a huge capacity panics. Otherwise proved."
  },
  {
   "property": "C53",
   "status": "proved",
   "theorems": [
    "C53_constructor",
    "C53_version_byte",
    "C53_operations"
   ],
   "note": ""
  },
  {
   "property": "C54",
   "status": "proved",
   "theorems": [
    "C54_v1_common",
    "C54_v1_common_bits",
    "C54_v2_common",
    "C54_v2_common_is_intersection"
   ],
   "note": "v1 and v2; the zero clause assumes ln(1) = 0."
  },
  {
   "property": "C55",
   "status": "partial",
   "theorems": [
    "C55_v1_merge",
    "C55_v2_merge_partial",
    "C55_refuted",
    "C55_insert_refuted"
   ],
   "note": "v1 proved. v2 refuted for saturated buckets (infinite estimate); proved when no bucket is saturated."
  },
  {
   "property": "C56",
   "status": "proved",
   "theorems": [
    "C56_v1_data",
    "C56_v1_data_kept",
    "C56_v2_data",
    "C56_v2_data_kept"
   ],
   "note": "v1 and v2."
  },
  {
   "property": "C57",
   "status": "proved",
   "theorems": [
    "C57_insert",
    "C57_succeeds"
   ],
   "note": "The success clause is for release builds and for usable filters whose stored probability is not NaN."
  },
  {
   "property": "C58",
   "status": "proved",
   "theorems": [
    "C58_programs",
    "C58_created",
    "C58_create",
    "C58_insert",
    "C58_check",
    "C58_show"
   ],
   "note": "Programs of calls are Spec_Script.step; C58_create, C58_insert, C58_check and C58_show are for the commands."
  },
  {
   "property": "C59",
   "status": "partial",
   "theorems": [
    "C59_show",
    "C59_show_v2",
    "C59_refuted",
    "C59_debug_refuted"
   ],
   "note": "Proved for files that hold a complete filter. C59_refuted: a truncated file is shown as if it were complete. C59_debug_refuted: a 48-byte file makes show panic in a debug build."
  },
  {
   "property": "C62",
   "status": "proved",
   "theorems": [
    "C62_python_files",
    "C62_missing"
   ],
   "note": ""
  },
  {
   "property": "C63",
   "status": "proved",
   "theorems": [
    "C63_create_check",
    "C63_insert_check"
   ],
   "note": ""
  },
  {
   "property": "C64",
   "status": "partial",
   "theorems": [
    "C64_any_jobs",
    "C64_refuted",
    "C64_full_refuted"
   ],
   "note": "The bits, the data and every answer do not depend on jobs, order or schedule (C64_any_jobs). C64_refuted: the count does. C64_full_refuted: so does whether a later insertion is refused."
  },
  {
   "property": "C60",
   "status": "proved",
   "theorems": [
    "C60_counts",
    "C60_rate"
   ],
   "note": ""
  },
  {
   "property": "C61",
   "status": "proved",
   "theorems": [
    "C61_entries",
    "C61_accepts",
    "C61_filter"
   ],
   "note": ""
  },
  {
   "property": "C65",
   "status": "proved",
   "theorems": [
    "C65_lines",
    "C65_rate"
   ],
   "note": ""
  },
  {
   "property": "C66",
   "status": "partial",
   "theorems": [
    "C66_verdict_partial",
    "C66_missing",
    "C66_refuted",
    "C66_innocent_refuted",
    "C66_runs_refuted"
   ],
   "note": "Right up to 2^-40 when every condition mutates some line (C66_verdict_partial). C66_refuted: a condition without mutated lines makes the average NaN and any filter pass. C66_innocent_refuted: a mutated line that is an entry counts as a false positive. C66_runs_refuted: zero runs panic."
  },
  {
   "property": "C67",
   "status": "partial",
   "theorems": [
    "C67_v2_answer",
    "C67_v1_answer",
    "C67_v2_rate",
    "C67_v2_rate_fine",
    "C67_v2_bucket",
    "C67_v1_rate",
    "C67_refuted"
   ],
   "note": "Proved up to a factor 9/4 (v2: p >= 2^-30; v1: at least 1000 entries, p >= 2^-100), with finer bounds: rounding the number of hash functions up costs up to exp(3/(4h)), h = log2(1/p). C67_refuted: p itself is exceeded. The rate is the exact average over all positions and buckets; that the real hashes spread evenly is an assumption."
  },
  {
   "property": "C68",
   "status": "partial",
   "theorems": [
    "C68_refuted",
    "C68_speed_refuted",
    "C68_answer",
    "C68_rate_partial"
   ],
   "note": "C68_rate_partial: at most p^(3/4) for p from 2^-30 to 1/2. C68_refuted: 50 times the requested rate at p = 2^-44; C68_speed_refuted: 4 times at p = 2^-22."
  },
  {
   "property": "C69",
   "status": "partial",
   "theorems": [
    "C69_estimated_p_partial",
    "C69_refuted"
   ],
   "note": "True of a filter filled to its capacity (C69_estimated_p_partial). C69_refuted: with one entry in a filter for 100 at 1% the estimate is below 2^-660, the rate above 2^-50."
  },
  {
   "property": "C70",
   "status": "proved",
   "theorems": [
    "C70_bucket_share",
    "C70_cache_share",
    "C70_cache_fixes_bucket"
   ],
   "note": ""
  },
  {
   "property": "C71",
   "status": "proved",
   "theorems": [
    "C71_macro_result",
    "C71_macro_ok",
    "C71_macro_panics"
   ],
   "note": ""
  },
  {
   "property": "C72",
   "status": "partial",
   "theorems": [
    "C72_size_text",
    "C72_size_order",
    "C72_in_mb",
    "C72_unit_refuted"
   ],
   "note": "The text is the nearest tenth (C72_size_text, C72_size_order). C72_unit_refuted: 1048575 bytes print as 1024.0KB."
  },
  {
   "property": "C73",
   "status": "partial",
   "theorems": [
    "C73_level_names",
    "C73_show_text",
    "C73_show_output",
    "C73_level_refuted"
   ],
   "note": "Version, capacity, count, probability and printed sizes can be read off the text (C73_show_text). C73_level_refuted: the optimisation level is not printed."
  },
  {
   "property": "C74",
   "status": "partial",
   "theorems": [
    "C74_builder",
    "C74_conversion",
    "C74_version_refuted"
   ],
   "note": "All clauses proved but the last: C74_version_refuted, try_into_v1 of parameters asking for version 2 and level best gives a v1 filter."
  },
  {
   "property": "C75",
   "status": "proved",
   "theorems": [
    "C75_bits",
    "C75_bits_of_entries"
   ],
   "note": ""
  },
  {
   "property": "C76",
   "status": "proved",
   "theorems": [
    "C76_by_value"
   ],
   "note": ""
  },
  {
   "property": "C77",
   "status": "partial",
   "theorems": [
    "C77_hash_functions",
    "C77_refuted"
   ],
   "note": "Proved for p up to 1/2 (C77_hash_functions). C77_refuted: none at 0.9."
  },
  {
   "property": "C78",
   "status": "partial",
   "theorems": [
    "C78_low_bits",
    "C78_one_position",
    "C78_accepts",
    "C78_exceptions",
    "C78_refuted",
    "C78_rate_refuted",
    "C78_comment_refuted"
   ],
   "note": "Refuted: with 2^a bits the first position determines all (C78_low_bits, C78_one_position, C78_accepts), apart from 59 of the 2^64 hash values per step (C78_exceptions). C78_refuted: one entry makes another appear at 2^20 bits and 7 hash functions; C78_rate_refuted: rate above 9% at a requested 1%."
  },
  {
   "property": "C79",
   "status": "partial",
   "theorems": [
    "C79_no_runs",
    "C79_single",
    "C79_between",
    "C79_runs",
    "C79_refuted"
   ],
   "note": "Refuted without a bound: zero runs panic (C79_no_runs) and so do three runs of 34 days, all discarded as outliers (C79_refuted). C79_single: one run is exact up to 12 days. C79_between: any reported time lies between two measured ones. C79_runs: for n runs of at most t seconds with n^3 t^2 <= 2^33 (the default 50 runs: 262 s each) a time is always reported and is the mean, to a nanosecond, of the runs in an interval."
  },
  {
   "property": "C80",
   "status": "partial",
   "theorems": [
    "C80_v2_merge",
    "C80_v2_lower",
    "C80_v2_exact",
    "C80_v1_merge",
    "C80_v1_exact_partial",
    "C80_v1_refuted"
   ],
   "note": "Accuracy proved for v2 (C80_v2_merge, C80_v2_lower, C80_v2_exact) and v1 (C80_v1_merge). Exact counts of few entries fail for v1 filters above 2^22 bits per position set: C80_v1_refuted (count 0 with one entry, 792041189 bits); C80_v1_exact_partial proves the rest."
  },
  {
   "property": "C81",
   "status": "partial",
   "theorems": [
    "C81_v1_answer",
    "C81_v2_answer",
    "C81_v2_counted",
    "C81_average",
    "C81_average_full",
    "C81_refuted"
   ],
   "note": "The answer is the estimate for the bits common to the entries (C81_v1_answer, C81_v2_answer) and common entries are counted (C81_v2_counted), but bits that coincide by chance are counted as well: C81_refuted, and on average a quarter of 32768/k per pair of full buckets (C81_average, C81_average_full)."
  },
  {
   "property": "C82",
   "status": "proved",
   "theorems": [
    "C82_v1_answer",
    "C82_v2_answer",
    "C82_v1_average",
    "C82_v2_average",
    "C82_v2_lower",
    "C82_v2_filter_lower"
   ],
   "note": "C82_v1_answer and C82_v2_answer: the count of a union is the estimate for the positions of the entries of both filters. C82_v1_average and C82_v2_average bound its average over ideal positions from both sides; C82_v2_lower and C82_v2_filter_lower hold for any number of entries (with ln 0 = -inf)."
  },
  {
   "property": "C83",
   "status": "proved",
   "theorems": [
    "C83_load",
    "C83_v1",
    "C83_v2"
   ],
   "note": "The loaders are modelled a second time over BufReader layers and a medium with a plan of short reads, interruptions and failures (M_BufRead.v); without failures they agree with the loaders of M_V1, M_V2 and M_Bloom on the whole content."
  },
  {
   "property": "C84",
   "status": "proved",
   "theorems": [
    "C84_load",
    "C84_broken"
   ],
   "note": "With failures: an I/O error or the same outcome; a medium that keeps failing before its end never gives a filter."
  },
  {
   "property": "C85",
   "status": "partial",
   "theorems": [
    "C85_lines",
    "C85_each",
    "C85_count_least",
    "C85_broken_count",
    "C85_refuted"
   ],
   "note": "C85_lines and C85_each prove the statement except that counting ends, C85_count_least that failures never make the count too small. C85_broken_count and C85_refuted: if reading fails for good, as for a directory, lines().count() never ends, so poppy create with a directory as dataset hangs."
  },
  {
   "property": "C86",
   "status": "partial",
   "theorems": [
    "C86_insert",
    "C86_insert_possible",
    "C86_create",
    "C86_create_complete",
    "C86_create_possible",
    "C86_refuted"
   ],
   "note": "The commands are modelled a second time over the media of M_BufRead (M_CliIO.v). C86_insert proves the part about insert, C86_create_complete the last sentence, C86_create the part about create with a capacity of at least the number of lines (modulo 2^64). C86_refuted: a read that fails once while counting makes the capacity larger, and create succeeds. The _possible theorems say that a readable run is among the runs of the model, so the statements are not about an empty set of runs."
  },
  {
   "property": "C87",
   "status": "proved",
   "theorems": [
    "C87_ok",
    "C87_sound",
    "C87_possible"
   ],
   "note": "C87_ok and C87_sound; C87_possible: the runs with readable files are among the runs of the model."
  },
  {
   "property": "C88",
   "status": "partial",
   "theorems": [
    "C88_reader",
    "C88_writer",
    "C88_refuted"
   ],
   "note": "C88_reader and C88_writer prove the statement except that the attached data may be cut short, which C88_refuted exhibits: from_reader takes the end of the file as the end of the data, and the file is truncated before it is rewritten. The model of the two processes (M_Live.v) interleaves single reads and writes of any length."
  },
  {
   "property": "C89",
   "status": "partial",
   "theorems": [
    "C89_partial",
    "C89_refuted",
    "C89_killed_refuted"
   ],
   "note": "C89_partial: when both are done the file loads, keeps all the old bits, and has no foreign bit. Missing: the lines of both processes. C89_refuted: one of them can be lost, since nothing is locked. C89_killed_refuted: if one process is killed the other can succeed and leave a filter that has lost an entry that was there before."
  },
  {
   "property": "C90",
   "status": "proved",
   "theorems": [
    "C90_v2_answer",
    "C90_v1",
    "C90_v1_three",
    "C90_v2_bucket",
    "C90_v2_filter",
    "C90_v2_average"
   ],
   "note": "All choices of positions are weighted alike (Spec_Rate.v, Spec_Tail.v). C90_v1, C90_v1_three: v1. C90_v2_bucket, C90_v2_filter: v2 without index cache. C90_v2_answer and C67_v1_answer tie the positions counted to the answers of the model; C90_v2_average shows that the average of what is counted is the rate of C67."
  },
  {
   "property": "C91",
   "status": "proved",
   "theorems": [
    "C91_v1",
    "C91_v2_bucket"
   ],
   "note": "C91_v1 and C91_v2_bucket, for the floating-point estimate of the model with any libm of the stated accuracy. C82_v1_answer and C82_v2_answer tie the number of set bits counted to the merge of the model."
  },
  {
   "property": "C92",
   "status": "partial",
   "theorems": [
    "C92_answer",
    "C92_twin",
    "C92_floor",
    "C92_common",
    "C92_upper",
    "C92_every",
    "C92_refuted"
   ],
   "note": "False of the faithful model: C92_refuted (a filter for 757 entries at 2^-30 has over 700 times that rate) and C92_every (over twice the rate for every filter of two buckets or more at 2^-22 or less). C92_answer ties what is counted (Spec_Double.v) to the answers of the model; C92_twin is the deterministic form; C92_floor is the lower bound. C92_common is the upper bound for rates from 1/1000 to 1/2, C92_upper for any sizes; between 2^-22 and 1/1000 neither bound is proved."
  },
  {
   "property": "C93",
   "status": "partial",
   "theorems": [
    "C93_first",
    "C93_answer",
    "C93_floor",
    "C93_every",
    "C93_refuted"
   ],
   "note": "False of the faithful model: C93_refuted (3418 entries at 1%: over 9%) and C93_every (over five times the rate for every full bucket at 1/64 or less). C93_first and C93_answer tie it to the model; C93_dates is a concrete pair of dates with the real wyhash."
  },
  {
   "property": "C94",
   "status": "partial",
   "theorems": [
    "C94_low_bits",
    "C94_prefix",
    "C94_bucket",
    "C94_cache",
    "C94_speed",
    "C94_answer",
    "C94_refuted"
   ],
   "note": "False of the faithful model: C94_refuted (a filter of level speed for 32768 entries at 1% has over 60% when its entries have at most eight bytes and share the first five). C94_low_bits, C94_prefix, C94_bucket, C94_cache and C94_speed say which entries go together, C94_answer ties what C94_refuted counts to the answers of the model."
  },
  {
   "property": "C95",
   "status": "partial",
   "theorems": [
    "C95_same",
    "C95_loaded",
    "C95_cut",
    "C95_show",
    "C95_refuted"
   ],
   "note": "False of files that do not load: C95_refuted. C95_loaded, C95_cut and C95_show give the bound for files that load, cut files and partial reads. C95_same: without the meter the metered reader is the reader of M_Bloom.v. Counted are the bytes requested for the vectors, the two buffers of 8 KiB and what read_to_end keeps; its spare capacity is left out."
  },
  {
   "property": "C96",
   "status": "partial",
   "theorems": [
    "C96_same",
    "C96_v2_contains",
    "C96_v2_insert",
    "C96_v1",
    "C96_created_v2",
    "C96_created_cached",
    "C96_created_v1",
    "C96_refuted"
   ],
   "note": "The bound per hash function holds for all filters (C96_v2_contains, C96_v2_insert, C96_v1), the number of hash functions is bounded for constructors (C96_created_v2, C96_created_cached, C96_created_v1) and not for files (C96_refuted). C96_same: without the meter these are the functions of the model."
  },
  {
   "property": "C97",
   "status": "partial",
   "theorems": [
    "C97_same_hash",
    "C97_extend",
    "C97_one_byte",
    "C97_append_zero",
    "C97_family",
    "C97_one_bit",
    "C97_refuted",
    "C97_v2_reference"
   ],
   "note": "False: C97_refuted, C97_family. C97_one_byte: entries that differ in one byte only have different values. C97_append_zero: a zero byte at the end goes unseen for the values 0 and 2^63 only. C97_v2_reference is the like for the WyHash of Ex_Wyhash.v, which is not the crate."
  },
  {
   "property": "C98",
   "status": "partial",
   "theorems": [
    "C98_success_partial",
    "C98_dead_partial",
    "C98_one_thread_partial",
    "C98_short_partial",
    "C98_reliable",
    "C98_refuted",
    "C98_closed_refuted"
   ],
   "note": "False in general: C98_refuted, C98_closed_refuted. C98_success_partial, C98_dead_partial, C98_one_thread_partial and C98_short_partial give the cases where it holds. C98_reliable: with an output that takes bytes this is the check of M_Cli.v, so that the other claims about check speak of the bytes that arrive. The LineWriter of std is modelled from memory."
  },
  {
   "property": "C99",
   "status": "partial",
   "theorems": [
    "C99_found_partial",
    "C99_local",
    "C99_errors",
    "C99_self",
    "C99_monotone",
    "C99_new",
    "C99_parameters",
    "C99_refused",
    "C99_common",
    "C99_load"
   ],
   "note": "C99_found_partial leaves out version 1 filters without bits, for which it is false (C02_refuted). The other parts are complete: C99_local, C99_errors, C99_monotone (release builds), C99_self. Saves are to a device with room. Borrow rules of pyo3 are modelled from memory."
  },
  {
   "property": "C100",
   "status": "partial",
   "theorems": [
    "C100_ledger",
    "C100_files_partial",
    "C100_objects_partial",
    "C100_loads",
    "C100_check_partial",
    "C100_exact",
    "C100_empty"
   ],
   "note": "C100_files_partial, C100_objects_partial and C100_check_partial leave out version 1 filters without bits, for which it is false (C02_refuted). Complete: C100_ledger (every session has a ledger), C100_loads, C100_exact, C100_empty. Saves find room; events of different programs do not overlap in time (C88, C89 are about that)."
  },
  {
   "property": "C101",
   "status": "proved",
   "theorems": [
    "C101_usize",
    "C101_ranged",
    "C101_float",
    "C101_names",
    "C101_float_only",
    "C101_every_double",
    "C101_options",
    "C101_create",
    "C101_insert",
    "C101_check",
    "C101_bench",
    "C101_show",
    "C101_order",
    "C101_touch",
    "C101_verify",
    "C101_recreate"
   ],
   "note": "C101_create, C101_insert, C101_check, C101_bench and C101_show characterise the accepted command lines; C101_usize, C101_ranged, C101_float, C101_float_only the numbers; C101_every_double: every finite double has a text. C101_recreate assumes that the printed probability reads back as itself, which is what Rust promises of its float printing (a parameter here), and the default optimisation level (not shown, C73_level_refuted). That clap and the standard library read arguments in this way is assumed (DESIGN.md); help and usage errors are not told apart."
  },
  {
   "property": "C102",
   "status": "partial",
   "theorems": [
    "C102_new",
    "C102_insert",
    "C102_check",
    "C102_dataset",
    "C102_check_zero",
    "C102_check_refuted",
    "C102_help_refuted"
   ],
   "note": "False of two commands: C102_check_refuted (poppy -j 0 check panics whatever the files, C102_check_zero) and C102_help_refuted (poppy create help creates a file). The others: C102_new, C102_insert, C102_check, C102_dataset. cat a b is one text only if a ends with a newline, which is assumed; saving finds room; C102_dataset is about release builds (debug ones may panic, C46). bench is C66."
  },
  {
   "property": "C103",
   "status": "proved",
   "theorems": [
    "C103_read",
    "C103_write",
    "C103_check",
    "C103_add",
    "C103_alone",
    "C103_interchange",
    "C103_kept",
    "C103_join",
    "C103_full",
    "C103_no_bits"
   ],
   "note": "The DCSO library is not in the repository: Spec_Dcso.v describes it, and that description produces poppy/src/data/test.bloom byte for byte (test_go_file in Ex_Conform.v). Its creation formula and the element count after Join are left out: the file carries the numbers of bits and of hash functions."
  },
  {
   "property": "C104",
   "status": "partial",
   "theorems": [
    "C104_ends",
    "C104_schedule",
    "C104_failed",
    "C104_files",
    "C104_saved_partial",
    "C104_saved_refuted",
    "C104_blind",
    "C104_silent",
    "C104_missing",
    "C104_garbled",
    "C104_garbled_file",
    "C104_garbled_insert",
    "C104_bench"
   ],
   "note": "Refuted part: status 0 of create or insert on a disk without room for the filter (C104_saved_refuted); C104_saved_partial is the rest. Standard output is taken to accept everything here; failures of standard output are the subject of C98."
  },
  {
   "property": "C105",
   "status": "partial",
   "theorems": [
    "C105_v2",
    "C105_v2_steps",
    "C105_v2_common",
    "C105_v1",
    "C105_v1_steps",
    "C105_v1_common",
    "C105_operand_refuted"
   ],
   "note": "The last sentence is refuted (C105_operand_refuted): the entry amg sets six bits, and merging an empty filter turns the count 1 into 0. The other parts are proved: version 2 without a full bucket, version 1 up to 2^40 bits and three quarters full."
  },
  {
   "property": "C106",
   "status": "partial",
   "theorems": [
    "C106_fed",
    "C106_prefix",
    "C106_collision",
    "C106_here",
    "C106_portable",
    "C106_portable_refuted"
   ],
   "note": "The last sentence is refuted (C106_portable_refuted) for integers of more than one byte and for options; it holds for byte strings, texts and one-byte integers (C106_portable). The rest is proved."
  },
  {
   "property": "C107",
   "status": "partial",
   "theorems": [
    "C107_v1",
    "C107_v2_mod",
    "C107_v2_partial",
    "C107_v2_refuted"
   ],
   "note": "Proved for version 1 and for version 2 files announcing less than 2^64 bytes. Refuted otherwise (C107_v2_refuted): 2^52 - 1 buckets move the reader backwards into the index cache."
  },
  {
   "property": "C108",
   "status": "partial",
   "theorems": [
    "C108_uniform",
    "C108_mutated",
    "C108_found",
    "C108_share",
    "C108_share_refuted",
    "C108_entries",
    "C108_letters"
   ],
   "note": "The last sentence is refuted (C108_share gives the exact difference, C108_share_refuted the case of 0%): the number is drawn from 0..=100, so 10(c+1) of 101 lines are mutated. The rest is proved."
  },
  {
   "property": "C109",
   "status": "proved",
   "theorems": [
    "C109_prepared",
    "C109_prepared_new",
    "C109_documented"
   ],
   "note": "C109_prepared is the general loop, C109_prepared_new the one of the documentation with any capacity and keys, C109_documented the five examples."
  },
  {
   "property": "C110",
   "status": "partial",
   "theorems": [
    "C110_lines",
    "C110_entries",
    "C110_share",
    "C110_mutated",
    "C110_each",
    "C110_refuted"
   ],
   "note": "C110_lines and C110_entries prove it of all lines read and of the entries of bench; it is false of mutated lines (C110_refuted; C110_each for every non-empty line), and C110_share and C110_mutated bound how many mutated lines are text on average."
  },
  {
   "property": "C111",
   "status": "partial",
   "theorems": [
    "C111_contained",
    "C111_failed",
    "C111_fits_partial",
    "C111_one_batch",
    "C111_grown_refuted",
    "C111_over_refuted",
    "C111_output_refuted"
   ],
   "note": "C111_contained: what a successful create wrote; C111_fits_partial: success if no more lines than counted (missing: debug builds with several version 2 batches, as in C46); C111_one_batch: capacity with one batch. The rest is false: C111_grown_refuted, C111_over_refuted, C111_output_refuted."
  },
  {
   "property": "C112",
   "status": "partial",
   "theorems": [
    "C112_queried",
    "C112_size_refuted",
    "C112_average",
    "C112_printed",
    "C112_average_refuted",
    "C112_zero_refuted",
    "C112_zero"
   ],
   "note": "C112_queried: lines queried; C112_average and C112_printed: the average, and the whole number printed for it, is the mean of the speeds, at least the overall speed, but for rounding; C112_zero: a time of zero. The rest is false: C112_size_refuted, C112_average_refuted, C112_zero_refuted."
  },
  {
   "property": "C113",
   "status": "partial",
   "theorems": [
    "C113_same_partial",
    "C113_same_cache_partial",
    "C113_v1_close",
    "C113_v2_close",
    "C113_v2_refuted",
    "C113_v1_refuted",
    "C113_v1_merge",
    "C113_v2_merge"
   ],
   "note": "C113_same_partial, C113_same_cache_partial: same shape when three values of the library agree, four with an index cache; C113_v1_close, C113_v2_close: sizes are close; C113_v1_merge, C113_v2_merge: merging the same filters gives the same answers. False in general: C113_v1_refuted, C113_v2_refuted. Answers of a loaded filter use no library function at all."
  },
  {
   "property": "C114",
   "status": "partial",
   "theorems": [
    "C114_blames",
    "C114_tell",
    "C114_read",
    "C114_union_refuted",
    "C114_fpp_refuted"
   ],
   "note": "C114_blames: which errors each call can give, in every program; C114_tell, C114_read: telling them apart by text (text of an io::Error is the system's and left free). The rest is false: C114_union_refuted, C114_fpp_refuted."
  },
  {
   "property": "C115",
   "status": "partial",
   "theorems": [
    "C115_reports",
    "C115_create",
    "C115_named",
    "C115_bench",
    "C115_merge_refuted",
    "C115_full_refuted"
   ],
   "note": "C115_reports: the errors each command can end with, with what brings each about; C115_bench: those of bench, never 'too many entries' (fewer than 2^64 lines). C115_create, C115_named: each of these is in fact reported, the first of several. False: C115_merge_refuted (a rate that is NaN), C115_full_refuted (input files that do not fit end with a panic)."
  }
 ]
}