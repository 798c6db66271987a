{
 "claims": [
  {
   "property": "C01",
   "status": "proved",
   "theorems": [
    "C01_fnv1_streaming",
    "C01_fnv1a_streaming",
    "C01_write_counts"
   ],
   "note": ""
  },
  {
   "property": "C02",
   "status": "proved",
   "theorems": [
    "C02_fnv1_no_single_byte_collision",
    "C02_fnv1a_no_single_byte_collision",
    "C02_fnv1_state_injective",
    "C02_fnv1a_state_injective"
   ],
   "note": ""
  },
  {
   "property": "C03",
   "status": "proved",
   "theorems": [
    "C03_fnv1_sum",
    "C03_fnv1a_sum"
   ],
   "note": ""
  },
  {
   "property": "C04",
   "status": "proved",
   "theorems": [
    "C04_set_get"
   ],
   "note": ""
  },
  {
   "property": "C05",
   "status": "proved",
   "theorems": [
    "C05_incn_saturates"
   ],
   "note": ""
  },
  {
   "property": "C06",
   "status": "proved",
   "theorems": [
    "C06_refines_array"
   ],
   "note": ""
  },
  {
   "property": "C07",
   "status": "proved",
   "theorems": [
    "C07_roundtrip",
    "C07_write_fail"
   ],
   "note": ""
  },
  {
   "property": "C08",
   "status": "partial",
   "theorems": [
    "C08_withbytes_refuted",
    "C08_withbytes_panics_refuted",
    "C08_readfrom_refuted",
    "C08_withbytes_partial",
    "C08_withbytes_rejects",
    "C08_readfrom_partial"
   ],
   "note": "Full statement refuted (C08_*_refuted): overflowing or zero-width headers are accepted or panic, ReadFrom does not check the width and accepts trailing bytes that a reader returns together with EOF. The _partial theorems cover every header announcing a size that fits in an int."
  },
  {
   "property": "C09",
   "status": "proved",
   "theorems": [
    "C09_write_through"
   ],
   "note": ""
  },
  {
   "property": "C10",
   "status": "proved",
   "theorems": [
    "C10_no_false_negatives",
    "C10_has_exact"
   ],
   "note": ""
  },
  {
   "property": "C11",
   "status": "proved",
   "theorems": [
    "C11_roundtrip",
    "C11_write_through"
   ],
   "note": ""
  },
  {
   "property": "C12",
   "status": "proved",
   "theorems": [
    "C12_monotone",
    "C12_new_empty",
    "C12_reset_empty"
   ],
   "note": ""
  },
  {
   "property": "C13",
   "status": "proved",
   "theorems": [
    "C13_set_semantics",
    "C13_idempotent",
    "C13_commutes"
   ],
   "note": ""
  },
  {
   "property": "C14",
   "status": "proved",
   "theorems": [
    "C14_registers",
    "C14_register_is_max",
    "C14_register_bound"
   ],
   "note": ""
  },
  {
   "property": "C15",
   "status": "proved",
   "theorems": [
    "C15_new_panics",
    "C15_add_safe",
    "C15_histogram_safe"
   ],
   "note": ""
  },
  {
   "property": "C16",
   "status": "proved",
   "theorems": [
    "C16_roundtrip",
    "C16_write_through"
   ],
   "note": ""
  },
  {
   "property": "C17",
   "status": "partial",
   "theorems": [
    "C17_empty",
    "C17_one_item_refuted",
    "C17_deterministic"
   ],
   "note": "Empty half proved (C17_empty); the one-item half is false and its negation is proved: one distinct item counts as 2 at every precision (C17_one_item_refuted), because Count rounds m ln(m/(m-1)) > 1 up."
  },
  {
   "property": "C18",
   "status": "partial",
   "theorems": [
    "C18_last_byte_refuted",
    "C18_one_register_refuted"
   ],
   "note": "The property is false of the code and the theorems prove its negation for every prefix and precision: FNV-1 lets the last byte reach only the low 8 hash bits."
  },
  {
   "property": "C19",
   "status": "proved",
   "theorems": [
    "C19_summary_is_fold",
    "C19_reset",
    "C19_batching",
    "C19_short_panics",
    "C19_new"
   ],
   "note": ""
  },
  {
   "property": "C20",
   "status": "proved",
   "theorems": [
    "C20_exact_welford",
    "C20_exact_mean"
   ],
   "note": ""
  },
  {
   "property": "C21",
   "status": "proved",
   "theorems": [
    "C21_integer_sums",
    "C21_order_irrelevant"
   ],
   "note": ""
  },
  {
   "property": "C22",
   "status": "partial",
   "theorems": [
    "C22_variance_nonneg_partial",
    "C22_variance_refuted"
   ],
   "note": "False in general (C22_variance_refuted: observations -maxfloat, maxfloat give variance -inf). Proved when no two observations differ by more than the largest float64."
  },
  {
   "property": "C23",
   "status": "proved",
   "theorems": [
    "C23_key_is_hash",
    "C23_only_key_fields",
    "C23_field_order",
    "C23_other_fields",
    "C23_fails_iff_missing",
    "C23_missing"
   ],
   "note": ""
  },
  {
   "property": "C24",
   "status": "partial",
   "theorems": [
    "C24_refuted",
    "C24_one_byte_partial"
   ],
   "note": "False in general (refuted theorem: key values are hashed with no separator, so ('ab','c') and ('a','bc') share a record; 64-bit hash collisions exist too). The partial theorem(s) give the cases where distinct key values provably get distinct keys."
  },
  {
   "property": "C25",
   "status": "proved",
   "theorems": [
    "C25_layout",
    "C25_writers_declared",
    "C25_field_count_ignored"
   ],
   "note": ""
  },
  {
   "property": "C26",
   "status": "proved",
   "theorems": [
    "C26_count"
   ],
   "note": ""
  },
  {
   "property": "C27",
   "status": "proved",
   "theorems": [
    "C27_stats",
    "C27_all_parsed"
   ],
   "note": ""
  },
  {
   "property": "C28",
   "status": "partial",
   "theorems": [
    "C28_max_partial",
    "C28_min_partial",
    "C28_absent_first_refuted",
    "C28_nan_refuted"
   ],
   "note": "Proved when the first row carries the field exactly once and no value is NaN; refuted when the first row lacks the field (compares against 0) and when a value is NaN."
  },
  {
   "property": "C29",
   "status": "partial",
   "theorems": [
    "C29_uniquecount_partial",
    "C29_duplicate_refuted"
   ],
   "note": "Proved when the first row carries the field exactly once; refuted for a first row without it (C30_absent_first_refuted) or carrying it twice."
  },
  {
   "property": "C30",
   "status": "partial",
   "theorems": [
    "C30_absent_field_unaffected_partial",
    "C30_accepted_partial",
    "C30_absent_first_refuted"
   ],
   "note": "The unaffected half is proved for the other fields' statistics and for rows after a first row that carried the counted fields; refuted for a first row lacking a uniquecount field (all later rows that carry it are rejected)."
  },
  {
   "property": "C31",
   "status": "partial",
   "theorems": [
    "C31_rejected_row_partial",
    "C31_refuted"
   ],
   "note": "Refuted: the row count is incremented before a value fails to parse. Partial: what is unaffected by a rejected row."
  },
  {
   "property": "C32",
   "status": "proved",
   "theorems": [
    "C32_in_order",
    "C32_declared_only"
   ],
   "note": ""
  },
  {
   "property": "C33",
   "status": "partial",
   "theorems": [
    "C33_get_exact",
    "C33_get_partial",
    "C33_refuted"
   ],
   "note": "Proved where the slot index is at least the record size and the slice bounds fit; refuted elsewhere: Get slices values[x*size : x*(size+1)], so it returns only the first x bytes of slot x."
  },
  {
   "property": "C34",
   "status": "partial",
   "theorems": [
    "C34_refuted",
    "C34_small_maps_partial"
   ],
   "note": "Refuted for every map with more than size+1 slots (Get of a key in the last slot panics); proved for smaller maps."
  },
  {
   "property": "C35",
   "status": "proved",
   "theorems": [
    "C35_out_of_slots",
    "C35_refusal_permanent",
    "C35_accepted",
    "C35_found"
   ],
   "note": ""
  },
  {
   "property": "C36",
   "status": "proved",
   "theorems": [
    "C36_histories",
    "C36_other_records",
    "C36_other_gets"
   ],
   "note": ""
  },
  {
   "property": "C37",
   "status": "partial",
   "theorems": [
    "C37_init_partial",
    "C37_refuted"
   ],
   "note": "First update of a key sees zeroed data and init=true when its home slot is free; refuted for displaced keys, whose updates see init=true for ever."
  },
  {
   "property": "C38",
   "status": "partial",
   "theorems": [
    "C38_update",
    "C38_get_zero_refuted"
   ],
   "note": "Key 0 is rejected by Update, but Get(0) reports found on an empty slot (refuted theorem)."
  },
  {
   "property": "C39",
   "status": "proved",
   "theorems": [
    "C39_update_once",
    "C39_inside",
    "C39_no_update_lost",
    "C39_whole_functions"
   ],
   "note": ""
  },
  {
   "property": "C40",
   "status": "partial",
   "theorems": [
    "C40_not_torn_partial",
    "C40_get_current_partial"
   ],
   "note": "Proved in every interleaving: fewer than 2^31 completed updates during the call and a buffer not longer than a record imply the copied bytes are those of one moment. Missing because false: only the first x bytes of slot x are copied (C33), last slots panic (C34), and 2^31 writes during one read wrap the counter (C49)."
  },
  {
   "property": "C41",
   "status": "proved",
   "theorems": [
    "C41_bufmap_one_slot",
    "C41_incmap_one_slot"
   ],
   "note": ""
  },
  {
   "property": "C42",
   "status": "partial",
   "theorems": [
    "C42_refuted",
    "C42_first_partial",
    "C42_flag_partial"
   ],
   "note": "Refuted by two explicit schedules (an update with init=false runs before the initialising one and is lost; two goroutines are both told to initialise). The _partial theorems state what holds in every interleaving."
  },
  {
   "property": "C43",
   "status": "partial",
   "theorems": [
    "C43_bufmap_concurrent_refuted",
    "C43_refuted",
    "C43_no_panic_no_hang_partial",
    "C43_seqlock_refuted"
   ],
   "note": "The property is false of the code; the theorems prove the negation: after a panic in an update function every later call on the key (bufmap) or block (seqlock) never returns, in every schedule. The partial theorem covers histories without panics."
  },
  {
   "property": "C44",
   "status": "proved",
   "theorems": [
    "C44_no_increment_lost",
    "C44_get_any_time",
    "C44_moment",
    "C44_adds_inside"
   ],
   "note": ""
  },
  {
   "property": "C45",
   "status": "proved",
   "theorems": [
    "C45_refused",
    "C45_accepted",
    "C45_zero"
   ],
   "note": ""
  },
  {
   "property": "C46",
   "status": "proved",
   "theorems": [
    "C46_monotone"
   ],
   "note": ""
  },
  {
   "property": "C47",
   "status": "proved",
   "theorems": [
    "C47_reads_not_torn"
   ],
   "note": ""
  },
  {
   "property": "C48",
   "status": "proved",
   "theorems": [
    "C48_writes_atomic",
    "C48_writes_inside",
    "C48_get_current"
   ],
   "note": ""
  },
  {
   "property": "C49",
   "status": "partial",
   "theorems": [
    "C49_wraparound_refuted"
   ],
   "note": "The claim is false of the code: 2^31 writes during one read bring the 32 bit version counter back to its old value and the read returns a mixture (the theorem exhibits the execution); C48 is the positive half, below that many writes."
  },
  {
   "property": "C50",
   "status": "partial",
   "theorems": [
    "C50_line_partial",
    "C50_bare_partial",
    "C50_refuted",
    "C50_equals_refuted"
   ],
   "note": "Proved for timestamps up to 2^63 ns (year 2262) and delimiters other than '='; refuted beyond: the timestamp wraps and '=' as delimiter tears pairs apart."
  },
  {
   "property": "C51",
   "status": "proved",
   "theorems": [
    "C51_total",
    "C51_accepts"
   ],
   "note": ""
  },
  {
   "property": "C52",
   "status": "partial",
   "theorems": [
    "C52_all_or_error",
    "C52_stops",
    "C52_every_body",
    "C52_cancelled_refuted"
   ],
   "note": "Proved for clients that stay; refuted for a cancelled request, which is answered 200 although lines were dropped."
  },
  {
   "property": "C53",
   "status": "proved",
   "theorems": [
    "C53_without_key",
    "C53_with_key"
   ],
   "note": ""
  },
  {
   "property": "C54",
   "status": "proved",
   "theorems": [
    "C54_obs",
    "C54_collation",
    "C54_no_change"
   ],
   "note": ""
  },
  {
   "property": "C55",
   "status": "proved",
   "theorems": [
    "C55_no_change",
    "C55_as_if_not_made"
   ],
   "note": ""
  },
  {
   "property": "C56",
   "status": "partial",
   "theorems": [
    "C56_count_partial",
    "C56_exact",
    "C56_refuted"
   ],
   "note": "Proved when the record is readable by bufmap.Get (first 8 bytes) and there is no 64-bit hash collision; C56_exact says what is answered in every other state; refuted for slot 0 (count 0) and the last slots (connection dropped)."
  },
  {
   "property": "C57",
   "status": "proved",
   "theorems": [
    "C57_parse",
    "C57_simple_values"
   ],
   "note": ""
  },
  {
   "property": "C58",
   "status": "proved",
   "theorems": [
    "C58_rejects",
    "C58_total"
   ],
   "note": ""
  },
  {
   "property": "C59",
   "status": "partial",
   "theorems": [
    "C59_value_partial",
    "C59_refuted"
   ],
   "note": "Proved unless a value contains whitespace-where-whitespace; refuted then, and for a value ending in = before another criterion."
  },
  {
   "property": "C60",
   "status": "partial",
   "theorems": [
    "C60_one_field_partial",
    "C60_refuted"
   ],
   "note": "Proved when all selected measures are of one field; refuted for two fields: the result order is that of a Go map iteration."
  },
  {
   "property": "C61",
   "status": "partial",
   "theorems": [
    "C61_refuted",
    "C61_exact_refuted",
    "C61_exact_partial",
    "C61_few_partial",
    "C61_never_negative_partial"
   ],
   "note": "False of the code, which divides by n (C61_refuted, C61_exact_refuted). Proved: mean and population variance in exact arithmetic, NaN for fewer than two values, never negative in float64."
  },
  {
   "property": "C62",
   "status": "proved",
   "theorems": [
    "C62_shuffle",
    "C62_repeated",
    "C62_fewer",
    "C62_panics",
    "C62_unbiased",
    "C62_random_bytes",
    "C62_printable"
   ],
   "note": ""
  },
  {
   "property": "C63",
   "status": "proved",
   "theorems": [
    "C63_mean_in_range"
   ],
   "note": ""
  },
  {
   "property": "C64",
   "status": "proved",
   "theorems": [
    "C64_sum_error"
   ],
   "note": ""
  },
  {
   "property": "C65",
   "status": "proved",
   "theorems": [
    "C65_constant"
   ],
   "note": ""
  },
  {
   "property": "C66",
   "status": "proved",
   "theorems": [
    "C66_update_never_panics",
    "C66_read_never_panics"
   ],
   "note": ""
  },
  {
   "property": "C67",
   "status": "partial",
   "theorems": [
    "C67_edge_refuted",
    "C67_fragmentation_partial",
    "C67_lines",
    "C67_long"
   ],
   "note": "Proved for every body except one whose unterminated last line has exactly 65536 bytes, for which it is refuted."
  },
  {
   "property": "C68",
   "status": "partial",
   "theorems": [
    "C68_interrupted_partial",
    "C68_refuted"
   ],
   "note": "False of the code: the truncated last line is applied (C68_refuted). Partial: nothing but lines of the received text is applied, in order, and the answer is 500."
  },
  {
   "property": "C69",
   "status": "proved",
   "theorems": [
    "C69_obs_answered"
   ],
   "note": ""
  },
  {
   "property": "C70",
   "status": "partial",
   "theorems": [
    "C70_stats_partial"
   ],
   "note": "Proved when the whole record is readable by bufmap.Get; see C56."
  },
  {
   "property": "C71",
   "status": "proved",
   "theorems": [
    "C71_wait_free"
   ],
   "note": ""
  },
  {
   "property": "C72",
   "status": "proved",
   "theorems": [
    "C72_get_returns"
   ],
   "note": ""
  },
  {
   "property": "C73",
   "status": "proved",
   "theorems": [
    "C73_independent"
   ],
   "note": ""
  },
  {
   "property": "C74",
   "status": "proved",
   "theorems": [
    "C74_low_range"
   ],
   "note": "math.Log is a parameter assumed accurate to 2^-50 relative (log_ok, shown satisfiable)."
  },
  {
   "property": "C75",
   "status": "proved",
   "theorems": [
    "C75_estimators_return"
   ],
   "note": "For any function in the place of math.Log."
  },
  {
   "property": "C76",
   "status": "partial",
   "theorems": [
    "C76_nonnegative_partial",
    "C76_few_items_partial",
    "C76_sixteen_items_refuted",
    "C76_linear_refuted"
   ],
   "note": "False in general: sixteen crafted items give -2^63, and LinearCount gives -2^63 when no register is empty. Proved when some register is at most 63-2p, in particular for fewer than 2^p items."
  },
  {
   "property": "C77",
   "status": "partial",
   "theorems": [
    "C77_monotone_partial",
    "C77_decrease_refuted"
   ],
   "note": "False at the boundary of the linear range (39 then 37 at p=6); proved inside the range."
  },
  {
   "property": "C78",
   "status": "partial",
   "theorems": [
    "C78_sizing",
    "C78_zero_items_refuted"
   ],
   "note": "Proved for 1 <= n <= 2^50 and every float64 0 < p < 1, given a math.Log of relative error 2^-50; false for n = 0 (New succeeds, every Add panics)."
  },
  {
   "property": "C79",
   "status": "proved",
   "theorems": [
    "C79_false_positive_rate"
   ],
   "note": "Bound 2p(1+2^-38); 2^-253 <= p < 1 (below that the number of hash functions is capped at 255). The textbook formula itself is a definition of the specification."
  },
  {
   "property": "C80",
   "status": "partial",
   "theorems": [
    "C80_large_partial",
    "C80_quarter_partial",
    "C80_count_partial",
    "C80_full_refuted",
    "C80_odd_never_full"
   ],
   "note": "Up to 2^24 bits in every state with a clear bit (always, for odd m); up to 2^50 bits while one bit in 1024 is clear, with an explicit error; within 1/64 up to 2^40 bits while a quarter is clear. False when every bit is set: Count is -2^63."
  },
  {
   "property": "C81",
   "status": "partial",
   "theorems": [
    "C81_error_rate_partial",
    "C81_half_full_refuted",
    "C81_full_refuted"
   ],
   "note": "Range and value proved for accurate math.Exp and math.Pow; the value is not the false positive rate because the code uses the number of set bits in place of the number of items: two refuting theorems."
  },
  {
   "property": "C82",
   "status": "proved",
   "theorems": [
    "C82_bitbucket_truncated",
    "C82_bloom_truncated",
    "C82_hll_truncated",
    "C82_bloom_write_fail",
    "C82_hll_write_fail"
   ],
   "note": ""
  },
  {
   "property": "C83",
   "status": "partial",
   "theorems": [
    "C83_bitbucket_short_buffer",
    "C83_bloom_short_buffer_partial",
    "C83_hll_short_buffer_partial",
    "C83_panics_refuted"
   ],
   "note": "Proved for bit buckets at every truncation point, and for bloom filters and counters at every truncation point after the two header bytes; C83_panics_refuted: with fewer than two bytes bloom.WithBytes and hll.WithBytes index out of range."
  },
  {
   "property": "C84",
   "status": "proved",
   "theorems": [
    "C84_never_panics",
    "C84_no_write_lost",
    "C84_nothing_invented",
    "C84_count",
    "C84_stats"
   ],
   "note": "Any number of goroutines, any interleaving of single memory accesses, any implementation of the update that has the effect of Collator.Update when nobody interferes. The answers are those read from the record at the end; Store.Read itself is subject to C33/C34."
  },
  {
   "property": "C85",
   "status": "partial",
   "theorems": [
    "C85_first_alone_partial",
    "C85_refuted"
   ],
   "note": "C85_refuted: two Writes racing to create a record both succeed and the maximum of one is lost. C85_first_alone_partial: true if the creating Write returns before any other Write to the key is called and the key gets its home slot."
  },
  {
   "property": "C86",
   "status": "partial",
   "theorems": [
    "C86_one_moment_partial",
    "C86_count_between_partial",
    "C86_count_monotone_partial"
   ],
   "note": "For records in slots whose number is at least the record size and that Get can slice (C33, C34), and fewer than 2^31 rows applied meanwhile (C40)."
  },
  {
   "property": "C87",
   "status": "proved",
   "theorems": [
    "C87_store_without_key",
    "C87_without_key",
    "C87_unseen"
   ],
   "note": "In any served state; key values unseen means that no posted row has the same 64 bit record key (C24), and the key is not the reserved 0 (C38)."
  },
  {
   "property": "C88",
   "status": "partial",
   "theorems": [
    "C88_exact_partial",
    "C88_never_negative_partial",
    "C88_few_refuted",
    "C88_sum_exact",
    "C88_sum_error"
   ],
   "note": "See is proved for three or more observations (exact value in exact arithmetic; never negative in float64); for fewer the code has no sensible value (C88_few_refuted). Sum is proved exactly and with its rounding error."
  },
  {
   "property": "C89",
   "status": "proved",
   "theorems": [
    "C89_adjacent",
    "C89_adjacent_nan",
    "C89_equiv",
    "C89_equivalence"
   ],
   "note": "From the bits: comparison of float64 values is comparison of positions on the line of bit patterns."
  },
  {
   "property": "C90",
   "status": "partial",
   "theorems": [
    "C90_negative_refuted",
    "C90_sound_partial",
    "C90_complete_partial",
    "C90_equiv_or_close"
   ],
   "note": "False for negative a (C90_negative_refuted: the difference is divided by a, so any two numbers are close). For positive a sound and complete up to rounding."
  },
  {
   "property": "C91",
   "status": "partial",
   "theorems": [
    "C91_max_partial",
    "C91_min_partial",
    "C91_uniquecount_partial",
    "C91_refuted"
   ],
   "note": "False when another key took the home slot of the record (C91_refuted: the first-row flag is set again for every row, so the answer is that of the last row). Proved when no row of another key can take that slot, the slot is readable (C33), no 64 bit key collision, and the first row has exactly one f (C28)."
  },
  {
   "property": "C92",
   "status": "partial",
   "theorems": [
    "C92_query_partial",
    "C92_no_rows"
   ],
   "note": "Needs the record to be readable wherever it was put (C33, C34), no 64 bit collision (C24), and, for max, min and uniquecount to be right, an undisturbed home slot and the field in the first row (C28, C29, C91)."
  },
  {
   "property": "C93",
   "status": "proved",
   "theorems": [
    "C93_no_row_lost",
    "C93_nothing_invented",
    "C93_stats"
   ],
   "note": "For every way of carrying out Collator.Update that has its effect when nobody interferes (impls_ok)."
  },
  {
   "property": "C94",
   "status": "partial",
   "theorems": [
    "C94_one_moment_partial",
    "C94_monotone_partial",
    "C94_count_between_partial"
   ],
   "note": "The record must be readable where it is (C33, C34) and have fewer than 2^31 rows (C40)."
  },
  {
   "property": "C95",
   "status": "partial",
   "theorems": [
    "C95_refuted",
    "C95_one_moment_partial",
    "C95_max_partial",
    "C95_min_partial",
    "C95_uniquecount_partial"
   ],
   "note": "Refuted (C95_refuted) for posts that create the record at the same time: the greatest value is lost although both posts are answered 200. Proved if a post with rows for the record is answered before another such post arrives, the home slot is undisturbed and readable, and the first row has the field once (C28)."
  },
  {
   "property": "C96",
   "status": "proved",
   "theorems": [
    "C96_all_answered",
    "C96_posts_get_a_status"
   ],
   "note": "For updates that make finitely many byte accesses (finite_updates) and have their effect when nobody interferes (impls_ok); schedules are weakly fair in rounds. The Go runtime (goroutine scheduling, sync.Mutex fairness) is represented by the schedule."
  },
  {
   "property": "C97",
   "status": "proved",
   "theorems": [
    "C97_one_at_a_time",
    "C97_deterministic"
   ],
   "note": "Ties the two server models together: ServerModel (functions) and ServerConcModel (interleaved steps); so the sequential theorems hold for all non-overlapping runs of the concurrent machine."
  },
  {
   "property": "C98",
   "status": "partial",
   "theorems": [
    "C98_mixed",
    "C98_query_partial",
    "C98_count_between_partial"
   ],
   "note": "C98_mixed is proved without condition on the run. The two theorems about queries in the middle of a run need the record to be wholly readable where it lies (the slice fault of C30/C91) and fewer than 2^31 rows (32-bit sequence number)."
  },
  {
   "property": "C99",
   "status": "proved",
   "theorems": [
    "C99_requests",
    "C99_starbow"
   ],
   "note": "Ties the whole program (main, Serve, signals) to the machine of C84-C98; C99_starbow instantiates C98 for the shipped configuration."
  },
  {
   "property": "C100",
   "status": "partial",
   "theorems": [
    "C100_ends_only",
    "C100_signal_ends_partial",
    "C100_lost_refuted"
   ],
   "note": "The ends-only half is proved. That SIGINT or SIGTERM ends the process is refuted: the channel given to signal.Notify has no buffer, so a signal between Notify and the first receive is dropped and the process goes on (C100_lost_refuted); proved for all other moments (C100_signal_ends_partial)."
  },
  {
   "property": "C101",
   "status": "partial",
   "theorems": [
    "C101_serve_error",
    "C101_silent_refuted"
   ],
   "note": "Serve returns an error exactly if it cannot listen (C101_serve_error); but main ignores it: the program ends with status 0 and prints nothing (C101_silent_refuted)."
  },
  {
   "property": "C102",
   "status": "partial",
   "theorems": [
    "C102_dropped_refuted"
   ],
   "note": "False of the code, which does not wait for requests: C102_dropped_refuted shows that in every run no request is answered after the signal was received and main had one more turn; dropped_nonvacuous shows a post with part of its rows applied that is never answered."
  },
  {
   "property": "C103",
   "status": "partial",
   "theorems": [
    "C103_queries",
    "C103_count_between_partial",
    "C103_count_monotone_partial",
    "C103_lost_refuted"
   ],
   "note": "C103_queries holds for every slot and every query (fewer than 2^31 rows for the record: 32-bit sequence numbers): it says exactly what can be seen of the record in slot x, which because of the slice fault of bufmap.Get (C30) is its first x bytes, and near the end of the store nothing (the connection is closed). The theorems about count(*) therefore need the counters, the first 8 bytes per row measure, to be readable where the record lies; C103_lost_refuted shows that this is needed."
  },
  {
   "property": "C104",
   "status": "partial",
   "theorems": [
    "C104_high_range_partial",
    "C104_middle_range_partial",
    "C104_overlap_partial",
    "C104_decrease_refuted",
    "C104_count_partial",
    "C104_same_set_partial",
    "C104_one_value_refuted",
    "C104_low_range_partial",
    "C104_few_rows_partial"
   ],
   "note": "C104_count_partial and C104_same_set_partial under the conditions of C91 (home slot undisturbed and readable, no 64-bit collision, field in the first row). Two parts are false of the code: one distinct value is reported as 2 (C104_one_value_refuted), and in a concrete run the 30th distinct value lowers the answer from 39 to 37 (C104_decrease_refuted). C104_low_range_partial gives the value in the linear range; C104_overlap_partial the bounds when requests overlap, in the linear range."
  },
  {
   "property": "C105",
   "status": "partial",
   "theorems": [
    "C105_only_two",
    "C105_country_partial",
    "C105_tz_partial"
   ],
   "note": "C105_only_two is proved without condition. The two theorems about the answers need the group to lie in a slot that Get can read as a whole (C33): 900 to 4984 of 5000 for country, 416 to 4978 for tz (country=US hashes to slot 309 and country=GB to 282, so the shipped program can only show part of their records), and for max, min and uniquecount the conditions of C91."
  },
  {
   "property": "C106",
   "status": "partial",
   "theorems": [
    "C106_flajolet_partial",
    "C106_harmonic",
    "C106_empty_refuted",
    "C106_ertl",
    "C106_ertl_empty",
    "C106_alpha_limit"
   ],
   "note": "HarmonicCount equals the published formula when no register is empty (C106_flajolet_partial); the code weighs an empty register 1/2 where the formula has 1 (C106_harmonic is the general value, C106_empty_refuted: almost twice the published value on the empty counter). PoissonCount is Ertl's estimate (C106_ertl, C106_ertl_empty). The estimate must be below 2^61 (beyond, see C76)."
  },
  {
   "property": "C107",
   "status": "proved",
   "theorems": [
    "C107_high_range",
    "C107_middle_range"
   ],
   "note": "Within one in a million of the switching point between the two ranges either estimator may be used, so the theorems exclude that band; so too within 2^-27 of the linear counting limit."
  },
  {
   "property": "C108",
   "status": "proved",
   "theorems": [
    "C108_redirected",
    "C108_redirect_once",
    "C108_other",
    "C108_star",
    "C108_only_two"
   ],
   "note": "URL.RawPath is taken to be empty (no unusual percent-encoding); the Location header is not part of the modelled answer, clean_path is what it is built from."
  },
  {
   "property": "C109",
   "status": "proved",
   "theorems": [
    "C109_mean_http_partial",
    "C109_variance_http_partial",
    "C109_mean_error",
    "C109_variance_error",
    "C109_small_spread"
   ],
   "note": "For the summary itself nothing is missing; the _partial theorems state it for the HTTP answer, under the readability and collision conditions of C70. How the number is printed (fmt) is a parameter."
  },
  {
   "property": "C110",
   "status": "proved",
   "theorems": [
    "C110_meanvar_error",
    "C110_see_error",
    "C110_see_million",
    "C110_meanvar_million"
   ],
   "note": "That Meanvar divides by n and not n-1 is C61; fewer than three observations for See is C88."
  },
  {
   "property": "C111",
   "status": "partial",
   "theorems": [
    "C111_no_overcount_partial",
    "C111_two_bytes_refuted",
    "C111_three_bytes_refuted",
    "C111_three_digits_refuted",
    "C111_more_digits_refuted",
    "C111_numbered_refuted",
    "C111_sixteen_million_refuted"
   ],
   "note": "The upper bound holds. The lower bound and the claim about precision are false of the code: FNV-1 carries the last bytes of a value into few registers. After any beginning, any number of values that differ in the last two bytes counts as at most 3 up to precision 16, in the last three bytes as at most 18 at precision 10 (2^p/63 + 2 in general; sixteen million in one witness), in the last three decimal digits as at most 3 up to precision 10; ten thousand values numbered with four digits count as at most 21, a hundred thousand with five as at most 249, at precision 10."
  },
  {
   "property": "C112",
   "status": "partial",
   "theorems": [
    "C112_floor",
    "C112_small_rate_refuted"
   ],
   "note": "False for small rates: double hashing modulo m has at most 4 m^2 patterns of bits, so for every filter of m bits and every set of at least 8 m^2 values at least one pair in 8 m^2 is a false positive; filters made for up to 1000 items at 2^-60 have a rate of at least 2^-36 with one item in them. What the textbook formula, which takes hashes as independent, gives for the sizes chosen is C79. An upper bound on the true rate over given values is not proved: it would be a claim about FNV on those values."
  }
 ]
}