{
 "claims": [
  {
   "property": "C01",
   "status": "proved",
   "theorems": [
    "C01_class_is_interval",
    "C01_highest_equivalent_top_refuted"
   ],
   "note": "Proved for every class; the class that ends at u64::MAX is the exception: highest_equivalent stops one short (C01_highest_equivalent_top_refuted)."
  },
  {
   "property": "C02",
   "status": "proved",
   "theorems": [
    "C02_resolution"
   ],
   "note": ""
  },
  {
   "property": "C03",
   "status": "proved",
   "theorems": [
    "C03_binning",
    "C03_bins_onto"
   ],
   "note": ""
  },
  {
   "property": "C04",
   "status": "proved",
   "theorems": [
    "C04_construction",
    "C04_new_is_empty",
    "C04_new",
    "C04_precision_fits"
   ],
   "note": ""
  },
  {
   "property": "C05",
   "status": "partial",
   "theorems": [
    "C05_low_discernible_partial",
    "C05_unit_bounds",
    "C05_low_discernible_refuted",
    "C05_unit_exact",
    "C05_discernible_iff"
   ],
   "note": "Holds for low < 2^48; refuted for low = 2^49 - 1, where the f64 logarithm rounds up (C05_low_discernible_refuted). C05_discernible_iff says exactly when it holds, for every low."
  },
  {
   "property": "C06",
   "status": "proved",
   "theorems": [
    "C06_records_add_up",
    "C06_records_new_bins",
    "C06_count_at"
   ],
   "note": ""
  },
  {
   "property": "C07",
   "status": "proved",
   "theorems": [
    "C07_len"
   ],
   "note": ""
  },
  {
   "property": "C08",
   "status": "proved",
   "theorems": [
    "C08_max",
    "C08_min_nz",
    "C08_min_nz_none",
    "C08_min",
    "C08_zero_count_moves_max_refuted"
   ],
   "note": "record_n with count 0 moves the extremes, see C08_zero_count_moves_max_refuted."
  },
  {
   "property": "C09",
   "status": "proved",
   "theorems": [
    "C09_reject_unchanged",
    "C09_covered_range",
    "C09_above_high_accepted_refuted"
   ],
   "note": "The bins cover all values below a power of two above high(); values between high() and it are accepted although the documentation says they fail (C09_above_high_accepted_refuted)."
  },
  {
   "property": "C10",
   "status": "proved",
   "theorems": [
    "C10_resize_high",
    "C10_auto_resize"
   ],
   "note": ""
  },
  {
   "property": "C11",
   "status": "proved",
   "theorems": [
    "C11_saturating",
    "C11_not_monotone_refuted"
   ],
   "note": "saturating_record is not monotone, see C11_not_monotone_refuted."
  },
  {
   "property": "C12",
   "status": "proved",
   "theorems": [
    "C12_correction",
    "C12_missing_values"
   ],
   "note": ""
  },
  {
   "property": "C13",
   "status": "proved",
   "theorems": [
    "C13_counts_in_type",
    "C13_monotone_record",
    "C13_monotone_add"
   ],
   "note": ""
  },
  {
   "property": "C14",
   "status": "proved",
   "theorems": [
    "C14_add_counts",
    "C14_add_same_precision",
    "C14_add_len",
    "C14_add_stats",
    "C14_add_error",
    "C14_len_after_saturation_refuted"
   ],
   "note": "len() of the sum is the sum of the lens for destinations whose counters never saturated; otherwise see C14_len_after_saturation_refuted."
  },
  {
   "property": "C15",
   "status": "proved",
   "theorems": [
    "C15_commutative",
    "C15_associative"
   ],
   "note": ""
  },
  {
   "property": "C16",
   "status": "proved",
   "theorems": [
    "C16_add_empty",
    "C16_add_fails_iff",
    "C16_same_config",
    "C16_identical_add_fails_refuted"
   ],
   "note": "The failure condition is exact. \"A histogram can always be added to one of the same configuration\" holds unless the source holds u64::MAX (C16_identical_add_fails_refuted)."
  },
  {
   "property": "C17",
   "status": "proved",
   "theorems": [
    "C17_subtract_empty",
    "C17_subtract_counts",
    "C17_subtract_success_iff",
    "C17_undo",
    "C17_subtract_stats"
   ],
   "note": ""
  },
  {
   "property": "C18",
   "status": "proved",
   "theorems": [
    "C18_subtract_error",
    "C18_subtract_total",
    "C18_partial_effect_refuted"
   ],
   "note": "The half-done effect of a failing subtract is exhibited by C18_partial_effect_refuted."
  },
  {
   "property": "C19",
   "status": "proved",
   "theorems": [
    "C19_new_from",
    "C19_set_to",
    "C19_set_to_equal"
   ],
   "note": ""
  },
  {
   "property": "C20",
   "status": "proved",
   "theorems": [
    "C20_reset",
    "C20_reset_like_new",
    "C20_reset_is_new",
    "C20_reset_not_equal_new_refuted",
    "C20_clear"
   ],
   "note": "reset is proved to give what a new histogram of the same bins holds; == with a freshly made one fails when low > 1 (C20_reset_not_equal_new_refuted)."
  },
  {
   "property": "C21",
   "status": "proved",
   "theorems": [
    "C21_eq_iff",
    "C21_eq_reflexive",
    "C21_eq_transitive",
    "C21_eq_agree",
    "C21_eq_symmetric",
    "C21_eq_not_symmetric_refuted"
   ],
   "note": "Symmetry is proved for histograms with equally many bins and refuted in general (C21_eq_not_symmetric_refuted)."
  },
  {
   "property": "C22",
   "status": "proved",
   "theorems": [
    "C22_recorded"
   ],
   "note": ""
  },
  {
   "property": "C23",
   "status": "proved",
   "theorems": [
    "C23_all"
   ],
   "note": ""
  },
  {
   "property": "C24",
   "status": "proved",
   "theorems": [
    "C24_accounts",
    "C24_total",
    "C24_fused",
    "C24_no_panic"
   ],
   "note": "For every picker, assuming the held counts sum to at most u64::MAX (the running totals saturate beyond that)."
  },
  {
   "property": "C25",
   "status": "proved",
   "theorems": [
    "C25_linear",
    "C25_overflow_refuted",
    "C25_shift_refuted"
   ],
   "note": "Proved when the levels computed, which end less than two steps and a class above the maximum, stay below u64::MAX. Otherwise computing the next level overflows (C25_overflow_refuted); with no significant digits and the full range the test whether to go on shifts by 64 bits (C25_shift_refuted)."
  },
  {
   "property": "C26",
   "status": "proved",
   "theorems": [
    "C26_log",
    "C26_integer_base"
   ],
   "note": "No restriction: all starts and bases the code accepts, including infinity."
  },
  {
   "property": "C27",
   "status": "proved",
   "theorems": [
    "C27_quantiles",
    "C27_ends",
    "C27_empty",
    "C27_saturated_refuted"
   ],
   "note": "f64::log2 is an oracle, assumed to be exact on powers of two and accurate to about 2^-41 elsewhere (log2_ok). Ending at quantile 1.0 is proved while len() is the number of samples held; after a counter has saturated the iteration ends below 1.0 (C27_saturated_refuted)."
  },
  {
   "property": "C28",
   "status": "proved",
   "theorems": [
    "C28_rank",
    "C28_rank_exists",
    "C28_monotone",
    "C28_zero",
    "C28_one",
    "C28_rank_beyond_len_refuted",
    "C28_overflow_panics_refuted",
    "C28_outcome"
   ],
   "note": "The outcome is characterised in every state (C28_outcome), the ordering results for histograms whose counts add up to at most u64::MAX; two failures of the code are exhibited: beyond 2^53 samples the rank can exceed len() and 0 is returned (C28_rank_beyond_len_refuted), and an overflowing running total panics (C28_overflow_panics_refuted)."
  },
  {
   "property": "C29",
   "status": "proved",
   "theorems": [
    "C29_fraction",
    "C29_total",
    "C29_monotone",
    "C29_top",
    "C29_saturated_refuted"
   ],
   "note": "Proved when len() equals the number of samples held; after a counter has saturated the answer depends on which half is counted (C29_saturated_refuted)."
  },
  {
   "property": "C30",
   "status": "proved",
   "theorems": [
    "C30_count_between",
    "C30_clamped",
    "C30_additive",
    "C30_history"
   ],
   "note": ""
  },
  {
   "property": "C31",
   "status": "proved",
   "theorems": [
    "C31_queries_total",
    "C31_updates_total",
    "C31_merge_total",
    "C31_construction_total",
    "C31_statistics_total",
    "C31_iterators_start"
   ],
   "note": ""
  },
  {
   "property": "C32",
   "status": "proved",
   "theorems": [
    "C32_round_trip",
    "C32_statistics",
    "C32_equal",
    "C32_equal_empty",
    "C32_equal_top_refuted",
    "C32_equal_zero_refuted",
    "C32_auto_resize_refuted"
   ],
   "note": "== after the round trip is proved for histograms whose statistics agree with their samples, unless the maximum is in the class of u64::MAX, or in the class of 0 with a unit above one; both exceptions are exhibited (C32_equal_top_refuted, C32_equal_zero_refuted). auto_resize is not part of the format (C32_auto_resize_refuted)."
  },
  {
   "property": "C33",
   "status": "proved",
   "theorems": [
    "C33_serializable"
   ],
   "note": ""
  },
  {
   "property": "C34",
   "status": "proved",
   "theorems": [
    "C34_varint",
    "C34_varint_length",
    "C34_readers_agree",
    "C34_zig_zag"
   ],
   "note": ""
  },
  {
   "property": "C35",
   "status": "proved",
   "theorems": [
    "C35_bounds"
   ],
   "note": "get_unchecked and the writes into the reserved buffer are checked accesses in the model, so absence of Panic is safety. The assert before the unchecked reads uses <= instead of <; it is the invariant of reachable histograms that makes the reads safe."
  },
  {
   "property": "C36",
   "status": "proved",
   "theorems": [
    "C36_total",
    "C36_release_total",
    "C36_debug_panic_refuted"
   ],
   "note": "Allocation of the payload buffer (up to 4 GiB as requested by a 40 byte header) is not modelled. With overflow checks, a number that zig-zag decodes to i64::MIN panics (C36_debug_panic_refuted)."
  },
  {
   "property": "C37",
   "status": "proved",
   "theorems": [
    "C37_prefix",
    "C37_cookie",
    "C37_concatenated"
   ],
   "note": ""
  },
  {
   "property": "C38",
   "status": "proved",
   "theorems": [
    "C38_narrowing"
   ],
   "note": ""
  },
  {
   "property": "C39",
   "status": "proved",
   "theorems": [
    "C39_serializer_reuse",
    "C39_deserializer_reuse"
   ],
   "note": ""
  },
  {
   "property": "C40",
   "status": "proved",
   "theorems": [
    "C40_compressed"
   ],
   "note": "The compressor is an abstract pair of functions with deflate followed by inflate the identity; flate2 itself is not modelled. A compressed payload of 4 GiB or more is excluded. If the decompressor does not consume its whole input, the rest of it is what the reader sees next."
  },
  {
   "property": "C41",
   "status": "proved",
   "theorems": [
    "C41_every_call_in_one_place",
    "C41_contents"
   ],
   "note": "Transition system over sequentially consistent memory, with a FIFO channel; every interleaving of the atomic steps. Proved while the SyncHistogram is alive and the program does not write to the merged histogram itself."
  },
  {
   "property": "C42",
   "status": "proved",
   "theorems": [
    "C42_quiet",
    "C42_all_dropped"
   ],
   "note": "Proved for merges that cannot fail (merge_safe, see C56) and fewer than 2^64 - 1 recorders; idle recorders keep their samples."
  },
  {
   "property": "C43",
   "status": "partial",
   "theorems": [
    "C43_missed_bounded",
    "C43_owed_bounded",
    "C43_undisturbed",
    "C43_barrier",
    "C43_synced_kept",
    "C43_missed_sample_refuted"
   ],
   "note": "The code violates the claim as stated: a recorder dropped during refresh makes it return early (C43_missed_sample_refuted). Proved when nothing disturbs the refresh in the sense of [smooth] and every active recorder has seen the current phase, a condition that refresh re-establishes and that is kept between refreshes. C43_missed_bounded covers every interleaving: the number of active recorders a refresh misses is at most the number of disturbing steps during it plus what was owed before; C43_undisturbed is the barrier under the weakest such condition, and ex_C43_each_disturbance shows that each kind of disturbance can cost a recorder."
  },
  {
   "property": "C44",
   "status": "partial",
   "theorems": [
    "C44_waits_for_enough",
    "C44_waits_for_someone",
    "C44_recording_pays",
    "C44_paid_stays",
    "C44_returns_when_paid",
    "C44_blocked_for_ever_refuted"
   ],
   "note": "The code violates the claim as stated: a recorder that goes idle between the reading of the count and the phase change blocks refresh for ever (C44_blocked_for_ever_refuted). Otherwise proved: a waiting reader waits for a recorder that still owes its histogram, recording pays, and once all have paid refresh returns. That refresh then eventually returns in every fair infinite execution is C69. C44_waits_for_enough covers every interleaving: a waiting reader lacks at most as many histograms as recorders went idle between its counting and its phase change, during this very call."
  },
  {
   "property": "C45",
   "status": "proved",
   "theorems": [
    "C45_count",
    "C45_mutex",
    "C45_leaked_guard_refuted"
   ],
   "note": "Holds unless the guard of an idle recorder is leaked with mem::forget (C45_leaked_guard_refuted)."
  },
  {
   "property": "C46",
   "status": "proved",
   "theorems": [
    "C46_milliseconds",
    "C46_close",
    "C46_loggable",
    "C46_round_trip",
    "C46_v2_bytes",
    "C46_samples",
    "C46_maximum",
    "C46_before_epoch_refuted",
    "C46_huge_duration_refuted",
    "C46_negative_divisor_refuted"
   ],
   "note": "Proved for times not before the epoch whose milliseconds fit, for comments that do not look like headers, and with f64::from_str as an oracle that accepts decimal numbers (and, for C46_maximum, rounds correctly). Times are kept to the millisecond, exactly for whole milliseconds below 2^42 s. Three failures are exhibited: times before the epoch are lost, durations close to 2^64 s and a divisor of negative zero give a log that cannot be read."
  },
  {
   "property": "C47",
   "status": "proved",
   "theorems": [
    "C47_total",
    "C47_fused"
   ],
   "note": "For every byte string up to isize/usize limits. nom 7.1 is modelled combinator by combinator; f64::from_str is an oracle."
  },
  {
   "property": "C48",
   "status": "proved",
   "theorems": [
    "C48_tag_new",
    "C48_parsed_tag_refuted"
   ],
   "note": "Accepted tags are read back unchanged (C46_round_trip). The parser itself delivers tags Tag::new would reject (C48_parsed_tag_refuted)."
  },
  {
   "property": "C49",
   "status": "proved",
   "theorems": [
    "C49_comment",
    "C49_header_comment_refuted"
   ],
   "note": "Proved for comments none of whose lines starts with a header; others are read as headers (C49_header_comment_refuted)."
  },
  {
   "property": "C50",
   "status": "partial",
   "theorems": [
    "C50_failures",
    "C50_recovered",
    "C50_comment",
    "C50_io_failure_refuted",
    "C50_before_partial",
    "C50_after_failure_refuted"
   ],
   "note": "The claim about later writes is false of the code: the half-written line stays and the next write is glued to it (C50_after_failure_refuted), and after an I/O error everything later can be unreadable (C50_io_failure_refuted). What does hold is proved for every history: C50_before_partial (up to the failure), C50_failures (exactly what a log with any number of serialization failures reads as), C50_recovered (dropping payloads that are not base64 leaves exactly the writes not directly after a failure) and C50_comment (writing a comment after every failure loses nothing)."
  },
  {
   "property": "C51",
   "status": "proved",
   "theorems": [
    "C51_mean",
    "C51_mean_between",
    "C51_stdev",
    "C51_empty"
   ],
   "note": "Accuracy, not only range: mean and stdev are within k + 6 and k + 9 relative errors of 2^-53 of the exact values (k classes with samples). The exact deviation is taken from the reported mean and from the medians as f64. After saturation len() differs from the number of samples held and mean() is the sum over len()."
  },
  {
   "property": "C52",
   "status": "partial",
   "theorems": [
    "C52_subtract_stats_partial",
    "C52_stale_min_nz_refuted",
    "C52_undo_not_equal_refuted",
    "C52_min_exact_iff",
    "C52_undo_iff"
   ],
   "note": "The claim is false of the code (C52_stale_min_nz_refuted, C52_undo_not_equal_refuted): subtract leaves a stale min_nz when the smallest non-zero class is emptied while the rescan is skipped. C52_min_exact_iff states exactly when that happens (and that the stale value is the old minimum), C52_undo_iff exactly when adding and subtracting the same histogram compares different from the original."
  },
  {
   "property": "C53",
   "status": "proved",
   "theorems": [
    "C53_add_correct",
    "C53_set_to_corrected",
    "C53_clone_correct",
    "C53_clone_plain",
    "C53_partial_effect_refuted"
   ],
   "note": "The effect of a failure part-way is characterised exactly in C53_add_correct and exhibited by C53_partial_effect_refuted."
  },
  {
   "property": "C54",
   "status": "proved",
   "theorems": [
    "C54_format"
   ],
   "note": ""
  },
  {
   "property": "C55",
   "status": "proved",
   "theorems": [
    "C55_foreign_images"
   ],
   "note": ""
  },
  {
   "property": "C56",
   "status": "proved",
   "theorems": [
    "C56_refresh_never_panics",
    "C56_refresh_panics_refuted"
   ],
   "note": "Proved for histograms that resize themselves or do not cover u64::MAX; otherwise recording u64::MAX makes the next refresh panic (C56_refresh_panics_refuted)."
  },
  {
   "property": "C57",
   "status": "proved",
   "theorems": [
    "C57_record",
    "C57_saturating_record",
    "C57_record_correct",
    "C57_plus_value",
    "C57_plus",
    "C57_minus",
    "C57_sum",
    "C57_sum_empty",
    "C57_sum_same_config",
    "C57_auto"
   ],
   "note": ""
  },
  {
   "property": "C58",
   "status": "proved",
   "theorems": [
    "C58_value_at_percentile",
    "C58_monotone",
    "C58_ends",
    "C58_percentile_below",
    "C58_step_percentile"
   ],
   "note": ""
  },
  {
   "property": "C59",
   "status": "proved",
   "theorems": [
    "C59_layout",
    "C59_bounded",
    "C59_full_range"
   ],
   "note": ""
  },
  {
   "property": "C60",
   "status": "proved",
   "theorems": [
    "C60_order",
    "C60_accepted",
    "C60_shards_held",
    "C60_shards_stats"
   ],
   "note": ""
  },
  {
   "property": "C61",
   "status": "proved",
   "theorems": [
    "C61_quantile_accuracy",
    "C61_rank"
   ],
   "note": ""
  },
  {
   "property": "C62",
   "status": "proved",
   "theorems": [
    "C62_mean_accuracy"
   ],
   "note": ""
  },
  {
   "property": "C63",
   "status": "proved",
   "theorems": [
    "C63_max_bound",
    "C63_max_held",
    "C63_min_nz_bound",
    "C63_min_bound",
    "C63_len_bound",
    "C63_min_le_max",
    "C63_min_above_max_refuted"
   ],
   "note": "Exactness of the extremes is C08, C17 and C32; this is what remains true in every state. After a subtract that failed half way on saturated counters min() can be u64::MAX while max() is 0 (C63_min_above_max_refuted)."
  },
  {
   "property": "C64",
   "status": "proved",
   "theorems": [
    "C64_accepted",
    "C64_meaning",
    "C64_header_errors",
    "C64_payload_errors",
    "C64_truncated",
    "C64_compressed"
   ],
   "note": "For plain input both directions; for compressed input relative to an abstract decompressor. A run of 2^63 zeros is an error, or a panic in a build with overflow checks (see C36)."
  },
  {
   "property": "C65",
   "status": "proved",
   "theorems": [
    "C65_canonical",
    "C65_unique",
    "C65_same_bytes",
    "C65_rewritten"
   ],
   "note": "Rewriting gives the same bytes while the maximum agrees with the samples; after a subtract that failed half way it may not."
  },
  {
   "property": "C66",
   "status": "proved",
   "theorems": [
    "C66_language",
    "C66_error",
    "C66_unambiguous",
    "C66_concatenation"
   ],
   "note": "UTF-8, seconds, numbers and lines are specified as relations in LangSpec. f64::from_str is an oracle."
  },
  {
   "property": "C67",
   "status": "proved",
   "theorems": [
    "C67_header",
    "C67_call",
    "C67_text",
    "C67_determined",
    "C67_maximum"
   ],
   "note": "The formats {:.3} and base64 are modelled and shown to satisfy independent descriptions that leave no choice (C67_determined). Durations must be valid (fewer than 10^9 nanoseconds)."
  },
  {
   "property": "C68",
   "status": "proved",
   "theorems": [
    "C68_delivers",
    "C68_outcome",
    "C68_plain",
    "C68_writer",
    "C68_willing",
    "C68_deflate_writer",
    "C68_retry",
    "C68_round_trip"
   ],
   "note": "read_exact and write_all are the loops of the standard library. For compressed input the streaming decompressor is an oracle that delivers what the decompressor makes of the bytes (decodes); how far the reader is then advanced depends on its buffering, so no claim is made about what is left."
  },
  {
   "property": "C69",
   "status": "proved",
   "theorems": [
    "C69_refresh_returns",
    "C69_timeout_returns",
    "C69_unused_recorder_refuted",
    "C69_clones_refuted"
   ],
   "note": "The race of C44 is excluded by hypothesis (idles_outside_ever), as are 2^64 refreshes and 2^64 recorders in use at once. Fairness is a hypothesis on the execution (recorders_go_on, reader_goes_on); the reader needs strong fairness because it competes for the mutex."
  },
  {
   "property": "C70",
   "status": "proved",
   "theorems": [
    "C70_recording_never_waits",
    "C70_mutex_released"
   ],
   "note": "Steps are the atomic actions of the model: a closure on the local histogram, a load, a send. Channel and allocator are assumed not to block."
  },
  {
   "property": "C71",
   "status": "proved",
   "theorems": [
    "C71_refresh_collects",
    "C71_handed_over",
    "C71_drop_hands_over",
    "C71_delivered",
    "C71_dropped_delivered",
    "C71_wake_refuted",
    "C71_naps_refuted"
   ],
   "note": "Fewer than 2^64 phase changes up to the moment the recorder looks at the phase. C71_naps_refuted: samples of a recorder that is idle during every refresh stay with it."
  },
  {
   "property": "C72",
   "status": "proved",
   "theorems": [
    "C72_stdev_accuracy"
   ],
   "note": ""
  },
  {
   "property": "C73",
   "status": "proved",
   "theorems": [
    "C73_sequential_runs",
    "C73_every_call_in_one_place",
    "C73_contents",
    "C73_refresh_never_panics",
    "C73_count",
    "C73_mutex",
    "C73_quiet",
    "C73_all_dropped",
    "C73_recording_never_waits",
    "C73_staleness",
    "C73_refresh_collects",
    "C73_drop_hands_over",
    "C73_handed_over",
    "C73_idle_hands_over"
   ],
   "note": "WeakModel: numbered values of the phase, a view per recorder and one for the mutex; mutex and channel are atomic, as in SyncModel. C73_sequential_runs: the runs of SyncModel are exactly those whose loads are all up to date. Liveness is C76."
  },
  {
   "property": "C74",
   "status": "proved",
   "theorems": [
    "C74_barrier",
    "C74_synced_kept",
    "C74_waits_for_someone",
    "C74_recording_pays",
    "C74_returns_when_paid",
    "C74_paid_stays",
    "C74_missed_late_wake_refuted",
    "C74_blocked_refuted"
   ],
   "note": "Conditions as in C43/C44, plus: recorders that become idle or wake up during the refresh see the latest phase. C74_missed_late_wake_refuted and C74_blocked_refuted show that the conditions of C43/C44 alone do not suffice."
  },
  {
   "property": "C75",
   "status": "proved",
   "theorems": [
    "C75_quantile",
    "C75_quantile_same",
    "C75_median_refuted",
    "C75_linear_same",
    "C75_linear_total",
    "C75_linear_wraps_refuted"
   ],
   "note": "ReleaseModel: wrapping addition and masked shifts in value_at_quantile and the linear iterator. The third place that can overflow is the deserializer (C36), whose model takes the profile as an argument. C75_median_refuted and C75_linear_wraps_refuted are the cases in which the results are wrong."
  },
  {
   "property": "C76",
   "status": "proved",
   "theorems": [
    "C76_refresh_returns",
    "C76_timeout_returns",
    "C76_invisible_refuted"
   ],
   "note": "Conditions as in C69 and C74 plus visibility (becomes_visible); without any visibility for refresh_timeout. C76_invisible_refuted: a recorder that never sees the phase move blocks refresh for ever."
  },
  {
   "property": "C77",
   "status": "proved",
   "theorems": [
    "C77_lines",
    "C77_serialize",
    "C77_rejects",
    "C77_report",
    "C77_no_ticks"
   ],
   "note": "At most 2^63 - 1 numbers; with compression: a lossless compressor that at most doubles its input; log2 as in C27. Parsing of the command line and formatting of the numbers are not modelled."
  },
  {
   "property": "C78",
   "status": "proved",
   "theorems": [
    "C78_handed_over",
    "C78_eventually",
    "C78_dropped_eventually",
    "C78_with_timeout",
    "C78_wrap_refuted"
   ],
   "note": "The recorder must wake up from idle only finitely often (C71_naps_refuted shows why) and the phase must not move 2^64 times between two of its looks (C78_wrap_refuted shows why). C78_handed_over is the finite statement behind it, without a bound on the length of the run."
  },
  {
   "property": "C79",
   "status": "proved",
   "theorems": [
    "C79_rounded",
    "C79_any_log2",
    "C79_default_low",
    "C79_every_low",
    "C79_library_matters_refuted"
   ],
   "note": "For low above 2^40 the result can depend on the library (C79_library_matters_refuted: low = 2^48 - 1 with two admissible logarithms); C79_every_low says in which cases and how."
  },
  {
   "property": "C80",
   "status": "proved",
   "theorems": [
    "C80_create",
    "C80_create_default",
    "C80_record",
    "C80_query",
    "C80_iterate",
    "C80_add",
    "C80_fixed",
    "C80_correct",
    "C80_copy_correct",
    "C80_wide",
    "C80_panic_refuted"
   ],
   "note": "WidthModel repeats every function that computes with usize for an arbitrary width. C80_panic_refuted: on a 16-bit target a constructor panics (capacity overflow) where UsizeTypeTooSmall would be expected."
  },
  {
   "property": "C81",
   "status": "proved",
   "theorems": [
    "C81_serialize",
    "C81_serialize_wide",
    "C81_round_trip",
    "C81_deserialize",
    "C81_run_refuted",
    "C81_claimed_length"
   ],
   "note": "C81_run_refuted: 46 bytes that a 64-bit target reads and a 32-bit target rejects. C81_claimed_length: on a 32-bit target every valid header that claims 2^31 bytes or more makes the deserializer panic."
  },
  {
   "property": "C82",
   "status": "proved",
   "theorems": [
    "C82_handed_over",
    "C82_eventually",
    "C82_dropped_eventually",
    "C82_with_timeout",
    "C82_invisible_refuted"
   ],
   "note": "The weak-memory counterpart of C78. C82_invisible_refuted: becomes_visible is needed. C82_handed_over is the finite statement, without a bound on the length of the run."
  },
  {
   "property": "C83",
   "status": "proved",
   "theorems": [
    "C83_handed_over",
    "C83_refresh_collects",
    "C83_drop_hands_over",
    "C83_eventually",
    "C83_dropped_eventually",
    "C83_timeout_returns",
    "C83_same_ever",
    "C83_same",
    "C83_as_checked",
    "C83_every_call_in_one_place",
    "C83_contents",
    "C83_refresh_never_panics",
    "C83_count",
    "C83_timeout_goes_on",
    "C83_deadlock_refuted"
   ],
   "note": "ReleaseSyncModel: the number of recorders wraps around instead of poisoning the mutex. C83_deadlock_refuted: a forgotten guard lets a plain refresh wait for ever."
  },
  {
   "property": "C84",
   "status": "proved",
   "theorems": [
    "C84_refresh_collects",
    "C84_drop_hands_over",
    "C84_eventually",
    "C84_dropped_eventually",
    "C84_timeout_returns",
    "C84_same",
    "C84_every_call_in_one_place",
    "C84_contents",
    "C84_refresh_never_panics",
    "C84_count",
    "C84_handed_over",
    "C84_wrap_refuted"
   ],
   "note": "WidthSyncModel: phase and number of recorders have B bits. C84_wrap_refuted: calls 2^B refreshes apart never hand over anything."
  },
  {
   "property": "C85",
   "status": "proved",
   "theorems": [
    "C85_same",
    "C85_as_checked",
    "C85_same_64",
    "C85_every_call_in_one_place",
    "C85_contents",
    "C85_refresh_never_panics",
    "C85_count",
    "C85_timeout_goes_on",
    "C85_deadlock_refuted",
    "C85_handed_over",
    "C85_refresh_collects",
    "C85_drop_hands_over",
    "C85_eventually",
    "C85_dropped_eventually",
    "C85_timeout_returns",
    "C85_same_ever"
   ],
   "note": "WidthReleaseModel: phase and number of recorders have B bits and both wrap around. C85_deadlock_refuted: a plain refresh can wait for 2^32 - 1 histograms after a forgotten guard."
  }
 ]
}