NOTE['C01'] = 'Proved for every class; the class that ends at u64::MAX is the exception: highest_equivalent stops one short (C01_highest_equivalent_top_refuted).'
STATUS['C05'] = 'partial'
NOTE['C05'] = 'Holds for low < 2^48; refuted for low = 2^49 - 1, where the f64 logarithm rounds up (C05_low_discernible_refuted). C05_discernible_iff says exactly when it holds, for every low.'
NOTE['C08'] = 'record_n with count 0 moves the extremes, see C08_zero_count_moves_max_refuted.'
NOTE['C09'] = 'The bins cover all values below a power of two above high(); values between high() and it are accepted although the documentation says they fail (C09_above_high_accepted_refuted).'
NOTE['C11'] = 'saturating_record is not monotone, see C11_not_monotone_refuted.'
NOTE['C14'] = 'len() of the sum is the sum of the lens for destinations whose counters never saturated; otherwise see C14_len_after_saturation_refuted.'
NOTE['C16'] = 'The failure condition is exact. "A histogram can always be added to one of the same configuration" holds unless the source holds u64::MAX (C16_identical_add_fails_refuted).'
NOTE['C18'] = 'The half-done effect of a failing subtract is exhibited by C18_partial_effect_refuted.'
NOTE['C20'] = 'reset is proved to give what a new histogram of the same bins holds; == with a freshly made one fails when low > 1 (C20_reset_not_equal_new_refuted).'
NOTE['C21'] = 'Symmetry is proved for histograms with equally many bins and refuted in general (C21_eq_not_symmetric_refuted).'
STATUS['C52'] = 'partial'
NOTE['C52'] = 'Refuted by the code: subtract leaves a stale min_nz when the smallest class is emptied while the maximum is untouched. C17_subtract_stats gives the conditions under which the statistics are right.'
NOTE['C24'] = 'For every picker, assuming the held counts sum to at most u64::MAX (the running totals saturate beyond that).'
NOTE['C53'] = 'The effect of a failure part-way is characterised exactly in C53_add_correct and exhibited by C53_partial_effect_refuted.'
NOTE['C28'] = 'The outcome is characterised in every state (C28_outcome), the ordering results for histograms whose counts add up to at most u64::MAX; two failures of the code are exhibited: beyond 2^53 samples the rank can exceed len() and 0 is returned (C28_rank_beyond_len_refuted), and an overflowing running total panics (C28_overflow_panics_refuted).'
NOTE['C29'] = 'Proved when len() equals the number of samples held; after a counter has saturated the answer depends on which half is counted (C29_saturated_refuted).'
NOTE['C32'] = '== after the round trip is proved for histograms whose statistics agree with their samples, unless the maximum is in the class of u64::MAX, or in the class of 0 with a unit above one; both exceptions are exhibited (C32_equal_top_refuted, C32_equal_zero_refuted). auto_resize is not part of the format (C32_auto_resize_refuted).'
NOTE['C35'] = 'get_unchecked and the writes into the reserved buffer are checked accesses in the model, so absence of Panic is safety. The assert before the unchecked reads uses <= instead of <; it is the invariant of reachable histograms that makes the reads safe.'
NOTE['C36'] = 'Allocation of the payload buffer (up to 4 GiB as requested by a 40 byte header) is not modelled. With overflow checks, a number that zig-zag decodes to i64::MIN panics (C36_debug_panic_refuted).'
NOTE['C40'] = 'The compressor is an abstract pair of functions with deflate followed by inflate the identity; flate2 itself is not modelled. A compressed payload of 4 GiB or more is excluded. If the decompressor does not consume its whole input, the rest of it is what the reader sees next.'
NOTE['C41'] = 'Transition system over sequentially consistent memory, with a FIFO channel; every interleaving of the atomic steps. Proved while the SyncHistogram is alive and the program does not write to the merged histogram itself.'
NOTE['C42'] = 'Proved for merges that cannot fail (merge_safe, see C56) and fewer than 2^64 - 1 recorders; idle recorders keep their samples.'
STATUS['C43'] = 'partial'
NOTE['C43'] = 'The code violates the claim as stated: a recorder dropped during refresh makes it return early (C43_missed_sample_refuted). Proved when nothing disturbs the refresh in the sense of [smooth] and every active recorder has seen the current phase, a condition that refresh re-establishes and that is kept between refreshes.'
STATUS['C44'] = 'partial'
NOTE['C44'] = 'The code violates the claim as stated: a recorder that goes idle between the reading of the count and the phase change blocks refresh for ever (C44_blocked_for_ever_refuted). Otherwise proved: a waiting reader waits for a recorder that still owes its histogram, recording pays, and once all have paid refresh returns. That refresh then eventually returns in every fair infinite execution is C69.'
NOTE['C45'] = 'Holds unless the guard of an idle recorder is leaked with mem::forget (C45_leaked_guard_refuted).'
NOTE['C56'] = 'Proved for histograms that resize themselves or do not cover u64::MAX; otherwise recording u64::MAX makes the next refresh panic (C56_refresh_panics_refuted).'
NOTE['C46'] = 'Proved for times not before the epoch whose milliseconds fit, for comments that do not look like headers, and with f64::from_str as an oracle that accepts decimal numbers (and, for C46_maximum, rounds correctly). Times are kept to the millisecond, exactly for whole milliseconds below 2^42 s. Three failures are exhibited: times before the epoch are lost, durations close to 2^64 s and a divisor of negative zero give a log that cannot be read.'
NOTE['C47'] = 'For every byte string up to isize/usize limits. nom 7.1 is modelled combinator by combinator; f64::from_str is an oracle.'
NOTE['C48'] = 'Accepted tags are read back unchanged (C46_round_trip). The parser itself delivers tags Tag::new would reject (C48_parsed_tag_refuted).'
NOTE['C49'] = 'Proved for comments none of whose lines starts with a header; others are read as headers (C49_header_comment_refuted).'
STATUS['C50'] = 'partial'
NOTE['C50'] = 'Proved for the log up to the failed write. The claim about later writes is false: the half-written line stays and the next interval is glued to it (C50_after_failure_refuted).'
NOTE['C25'] = 'Proved when the levels computed, which end less than two steps and a class above the maximum, stay below u64::MAX. Otherwise computing the next level overflows (C25_overflow_refuted); with no significant digits and the full range the test whether to go on shifts by 64 bits (C25_shift_refuted).'
NOTE['C26'] = 'No restriction: all starts and bases the code accepts, including infinity.'
NOTE['C27'] = 'f64::log2 is an oracle, assumed to be exact on powers of two and accurate to about 2^-41 elsewhere (log2_ok). Ending at quantile 1.0 is proved while len() is the number of samples held; after a counter has saturated the iteration ends below 1.0 (C27_saturated_refuted).'
NOTE['C51'] = 'Accuracy, not only range: mean and stdev are within k + 6 and k + 9 relative errors of 2^-53 of the exact values (k classes with samples). The exact deviation is taken from the reported mean and from the medians as f64. After saturation len() differs from the number of samples held and mean() is the sum over len().'
NOTE['C63'] = 'Exactness of the extremes is C08, C17 and C32; this is what remains true in every state. After a subtract that failed half way on saturated counters min() can be u64::MAX while max() is 0 (C63_min_above_max_refuted).'
NOTE['C64'] = 'For plain input both directions; for compressed input relative to an abstract decompressor. A run of 2^63 zeros is an error, or a panic in a build with overflow checks (see C36).'
NOTE['C65'] = 'Rewriting gives the same bytes while the maximum agrees with the samples; after a subtract that failed half way it may not.'
NOTE['C66'] = 'UTF-8, seconds, numbers and lines are specified as relations in LangSpec. f64::from_str is an oracle.'
NOTE['C67'] = 'The formats {:.3} and base64 are modelled and shown to satisfy independent descriptions that leave no choice (C67_determined). Durations must be valid (fewer than 10^9 nanoseconds).'
NOTE['C68'] = 'read_exact and write_all are the loops of the standard library. For compressed input the streaming decompressor is an oracle that delivers what the decompressor makes of the bytes (decodes); how far the reader is then advanced depends on its buffering, so no claim is made about what is left.'
NOTE['C69'] = 'The race of C44 is excluded by hypothesis (idles_outside_ever), as are 2^64 refreshes and 2^64 recorders in use at once. Fairness is a hypothesis on the execution (recorders_go_on, reader_goes_on); the reader needs strong fairness because it competes for the mutex.'
NOTE['C70'] = 'Steps are the atomic actions of the model: a closure on the local histogram, a load, a send. Channel and allocator are assumed not to block.'
NOTE['C71'] = 'Fewer than 2^64 phase changes up to the moment the recorder looks at the phase. C71_naps_refuted: samples of a recorder that is idle during every refresh stay with it.'
NOTE['C52'] = 'The claim is false of the code (C52_stale_min_nz_refuted, C52_undo_not_equal_refuted): subtract leaves a stale min_nz when the smallest non-zero class is emptied while the rescan is skipped. C52_min_exact_iff states exactly when that happens (and that the stale value is the old minimum), C52_undo_iff exactly when adding and subtracting the same histogram compares different from the original.'
NOTE['C50'] = 'The claim about later writes is false of the code: the half-written line stays and the next write is glued to it (C50_after_failure_refuted), and after an I/O error everything later can be unreadable (C50_io_failure_refuted). What does hold is proved for every history: C50_before_partial (up to the failure), C50_failures (exactly what a log with any number of serialization failures reads as), C50_recovered (dropping payloads that are not base64 leaves exactly the writes not directly after a failure) and C50_comment (writing a comment after every failure loses nothing).'

NOTE['C43'] += ' C43_missed_bounded covers every interleaving: the number of active recorders a refresh misses is at most the number of disturbing steps during it plus what was owed before; C43_undisturbed is the barrier under the weakest such condition, and ex_C43_each_disturbance shows that each kind of disturbance can cost a recorder.'
NOTE['C44'] += ' C44_waits_for_enough covers every interleaving: a waiting reader lacks at most as many histograms as recorders went idle between its counting and its phase change, during this very call.'
NOTE['C73'] = 'WeakModel: numbered values of the phase, a view per recorder and one for the mutex; mutex and channel are atomic, as in SyncModel. C73_sequential_runs: the runs of SyncModel are exactly those whose loads are all up to date. Liveness is C76.'
NOTE['C74'] = 'Conditions as in C43/C44, plus: recorders that become idle or wake up during the refresh see the latest phase. C74_missed_late_wake_refuted and C74_blocked_refuted show that the conditions of C43/C44 alone do not suffice.'
NOTE['C75'] = 'ReleaseModel: wrapping addition and masked shifts in value_at_quantile and the linear iterator. The third place that can overflow is the deserializer (C36), whose model takes the profile as an argument. C75_median_refuted and C75_linear_wraps_refuted are the cases in which the results are wrong.'
NOTE['C76'] = 'Conditions as in C69 and C74 plus visibility (becomes_visible); without any visibility for refresh_timeout. C76_invisible_refuted: a recorder that never sees the phase move blocks refresh for ever.'
NOTE['C77'] = 'At most 2^63 - 1 numbers; with compression: a lossless compressor that at most doubles its input; log2 as in C27. Parsing of the command line and formatting of the numbers are not modelled.'
NOTE['C78'] = 'The recorder must wake up from idle only finitely often (C71_naps_refuted shows why) and the phase must not move 2^64 times between two of its looks (C78_wrap_refuted shows why). C78_handed_over is the finite statement behind it, without a bound on the length of the run.'
NOTE['C79'] = 'For low above 2^40 the result can depend on the library (C79_library_matters_refuted: low = 2^48 - 1 with two admissible logarithms); C79_every_low says in which cases and how.'
NOTE['C80'] = 'WidthModel repeats every function that computes with usize for an arbitrary width. C80_panic_refuted: on a 16-bit target a constructor panics (capacity overflow) where UsizeTypeTooSmall would be expected.'
NOTE['C81'] = 'C81_run_refuted: 46 bytes that a 64-bit target reads and a 32-bit target rejects. C81_claimed_length: on a 32-bit target every valid header that claims 2^31 bytes or more makes the deserializer panic.'
NOTE['C82'] = 'The weak-memory counterpart of C78. C82_invisible_refuted: becomes_visible is needed. C82_handed_over is the finite statement, without a bound on the length of the run.'
NOTE['C83'] = 'ReleaseSyncModel: the number of recorders wraps around instead of poisoning the mutex. C83_deadlock_refuted: a forgotten guard lets a plain refresh wait for ever.'
NOTE['C84'] = 'WidthSyncModel: phase and number of recorders have B bits. C84_wrap_refuted: calls 2^B refreshes apart never hand over anything.'
NOTE['C85'] = 'WidthReleaseModel: phase and number of recorders have B bits and both wrap around. C85_deadlock_refuted: a plain refresh can wait for 2^32 - 1 histograms after a forgotten guard.'
