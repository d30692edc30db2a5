{"id": "C01", "title": "Equivalence classes are contiguous intervals around each value", "statement": "For every value v, lowest_equivalent(v) <= v <= highest_equivalent(v); w is equivalent(v) exactly when it lies between those two bounds (the topmost class, which contains u64::MAX, is the one exception and is characterised exactly); next_non_equivalent(v) is the start of the next class; equivalent_range is its width; median_equivalent lies inside it.", "quantifier": "every constructible configuration (low, high, sigfig) and every u64 value, including 0 and u64::MAX", "why_tests_cant": "2^64 values times ~2^127 configurations; bugs sit at bucket boundaries that depend on the configuration.", "anchors": ["src/lib.rs: lowest_equivalent, highest_equivalent, next_non_equivalent, median_equivalent, equivalent_range, equivalent"]}
{"id": "C02", "title": "Significant-digit resolution guarantee", "statement": "Two values the histogram cannot tell apart differ by less than one unit of the configured granularity (largest power of two not above low) or by less than v / 10^sigfig: sigfig decimal digits are really kept for every value.", "quantifier": "every constructible configuration and every u64 value", "why_tests_cant": "The guarantee is a relation between 10^sigfig and powers of two over the whole u64 range; a test can only check sample points.", "anchors": ["src/lib.rs: new_with_bounds, equivalent_range, bucket_for, sub_bucket_for"]}
{"id": "C03", "title": "Binning is order preserving, onto, and never overflows", "statement": "The bin a value is counted in is a monotone function of the value, distinct classes use distinct bins, every bin is the bin of its own representative value, and none of the u8/u32/i32/u64 arithmetic on the way can overflow, underflow or over-shift.", "quantifier": "every constructible configuration, every u64 value, every bin index of the histogram", "why_tests_cant": "Overflow needs extreme combinations of unit magnitude, precision and value.", "anchors": ["src/lib.rs: index_for, value_for, bucket_for, sub_bucket_for, value_from_loc"]}
{"id": "C04", "title": "Construction accepts exactly the documented parameters", "statement": "new_with_bounds(low, high, sigfig) succeeds exactly when 1 <= low <= u64::MAX/2, high >= 2*low, sigfig <= 5 and the precision fits above low; each rejection returns the documented error; it never panics; a new histogram is empty, keeps its parameters, and can represent every value up to high.", "quantifier": "every low, high: u64 and sigfig: u8", "why_tests_cant": "2^136 inputs; the float log2 step makes boundary behaviour non obvious.", "anchors": ["src/lib.rs: new_with_bounds, new_with_max, new, resize, buckets_to_cover, num_bins", "src/errors/mod.rs: CreationError"]}
{"id": "C05", "title": "Low is distinguishable from zero", "statement": "The lowest discernible value passed at construction is never equivalent to 0 and the granularity is low rounded DOWN to a power of two.", "quantifier": "every accepted low", "why_tests_cant": "low goes through f64 rounding and log2; failures only show just below large powers of two.", "anchors": ["src/lib.rs: new_with_bounds (unit_magnitude)"]}
{"id": "C06", "title": "Recorded samples are counted in their class and nowhere else", "statement": "After any sequence of successful records starting from a new histogram, count_at(v) equals the number of recorded samples equivalent to v, capped at the counter maximum; no other count changes.", "quantifier": "every configuration, counter type, finite history of (value, count) records and every queried value", "why_tests_cant": "Histories are unbounded; saturation needs huge counts.", "anchors": ["src/lib.rs: record, record_n, record_n_inner, mut_at, count_at, index_for_or_last"]}
{"id": "C07", "title": "len() counts every recorded sample", "statement": "len() after any history of records is the sum of recorded counts saturated at u64::MAX, independent of per-bin counter saturation; and is_empty() is len()==0.", "quantifier": "every history of records, every counter type", "why_tests_cant": "Totals beyond the counter type or u64 need astronomically long histories.", "anchors": ["src/lib.rs: len, is_empty, record_n_inner"]}
{"id": "C08", "title": "min, max and min_nz track the recorded extremes", "statement": "After a history of records, max() is the top of the class of the largest recorded value, min() the bottom of the class of the smallest, min_nz() the bottom of the class of the smallest one that is not equivalent to zero.", "quantifier": "every configuration and every non-empty history of records with non-zero counts", "why_tests_cant": "Orderings of arbitrary histories; unit-magnitude masking hides errors for low = 1.", "anchors": ["src/lib.rs: min, max, min_nz, update_min_max, update_max, update_min"]}
{"id": "C09", "title": "A rejected record changes nothing", "statement": "When auto-resize is off, record fails with ValueOutOfRangeResizeDisabled exactly when the value is beyond the largest value the bins cover, and then the histogram is unchanged; every value up to high() is accepted.", "quantifier": "every reachable histogram and every value", "why_tests_cant": "Must hold for every prior history and every value.", "anchors": ["src/lib.rs: record_n_inner, mut_at"]}
{"id": "C10", "title": "Auto-resize never loses data and never fails", "statement": "With auto-resize on, every u64 value can be recorded; growth keeps all previous counts, totals and statistics and raises high() to cover the value; bins never shrink.", "quantifier": "every reachable histogram with auto-resize enabled and every value", "why_tests_cant": "Any resize point in any history.", "anchors": ["src/lib.rs: record_n_inner, resize, auto"]}
{"id": "C11", "title": "saturating_record never fails and never resizes", "statement": "saturating_record(v) always succeeds, adds the count to v's own class when the bins cover v and to the class of high() otherwise, and leaves the configuration alone.", "quantifier": "every reachable histogram and every value", "why_tests_cant": "Any value against any configuration.", "anchors": ["src/lib.rs: saturating_record, saturating_record_n, record_n_inner"]}
{"id": "C12", "title": "Coordinated-omission correction records exactly the missing series", "statement": "record_n_correct(v, n, interval) has exactly the effect of recording v and then v-interval, v-2*interval, ... down to the last one >= interval, n each; it terminates; on error nothing is changed; interval 0 adds nothing.", "quantifier": "every reachable histogram, value, count and interval", "why_tests_cant": "The series length is v/interval, unbounded in practice.", "anchors": ["src/lib.rs: record_correct, record_n_correct"]}
{"id": "C13", "title": "Counters saturate instead of wrapping", "statement": "No sequence of recording, adding or resizing ever makes a bin count decrease or wrap; every count stays between 0 and the counter type's maximum.", "quantifier": "every reachable histogram and every recording/adding operation", "why_tests_cant": "Wrap needs counts near the type's limit in arbitrary histories.", "anchors": ["src/lib.rs: record_n_inner, add", "src/core/counter.rs: Counter"]}
{"id": "C14", "title": "add is bin-wise addition", "statement": "When add(source) succeeds, for every value the new count is the saturated sum of the old one and the counts source holds for values that fall in that class; len() adds up; the extremes are the extremes of both; a failing add changes nothing; it never panics.", "quantifier": "every pair of reachable histograms, with equal or different configurations, auto-resize on or off", "why_tests_cant": "Three code paths (copy, aligned, re-record) over arbitrary pairs.", "anchors": ["src/lib.rs: add"]}
{"id": "C15", "title": "add is commutative and associative", "statement": "Merging histograms of the same configuration in any order and grouping gives the same counts, len, min and max.", "quantifier": "all triples of reachable histograms with one configuration", "why_tests_cant": "Algebraic law over unbounded states.", "anchors": ["src/lib.rs: add, AddAssign, Add, Sum"]}
{"id": "C16", "title": "add succeeds exactly when the values fit", "statement": "Without auto-resize, add fails exactly when the source's maximum exceeds the range the destination can represent; in particular a histogram can always be added to another of the same configuration.", "quantifier": "every pair of reachable histograms", "why_tests_cant": "Boundary behaviour at u64::MAX.", "anchors": ["src/lib.rs: add"]}
{"id": "C17", "title": "subtract undoes add", "statement": "After h.add(s), h.subtract(s) succeeds and gives back every original count and len (no counter saturated); a successful subtract is bin-wise subtraction and leaves min, max and len consistent with the remaining counts.", "quantifier": "every pair of reachable histograms", "why_tests_cant": "Restat logic only triggers for particular value/extreme combinations.", "anchors": ["src/lib.rs: subtract, restat, RestatState"]}
{"id": "C18", "title": "A failing subtract", "statement": "When subtract fails because the subtrahend is out of range nothing changes; when it fails on counts, the histogram stays usable: no count wraps and no operation panics afterwards (counts before the failing one are already reduced and len() is stale).", "quantifier": "every pair of reachable histograms", "why_tests_cant": "Partial application depends on where the first impossible subtraction is.", "anchors": ["src/lib.rs: subtract", "src/errors/mod.rs: SubtractionError"]}
{"id": "C19", "title": "clone, new_from and set_to copy faithfully", "statement": "new_from gives an empty histogram with the same range and bins; set_to makes the destination observably equal to the source.", "quantifier": "every pair of reachable histograms", "why_tests_cant": "Arbitrary histories including resizes.", "anchors": ["src/lib.rs: new_from, set_to, set_to_corrected, clone_correct"]}
{"id": "C20", "title": "reset and clear", "statement": "After reset the histogram behaves as a new one of the same configuration; clear removes all counts but keeps min/max statistics.", "quantifier": "every reachable histogram and every subsequent history", "why_tests_cant": "Needs equality of all future behaviour.", "anchors": ["src/lib.rs: reset, clear, reset_max, reset_min"]}
{"id": "C21", "title": "Histogram equality", "statement": "== is reflexive, transitive, and equal histograms agree on counts, len, min_nz and max; symmetry is examined.", "quantifier": "all pairs and triples of reachable histograms", "why_tests_cant": "Relational properties over all pairs.", "anchors": ["src/lib.rs: PartialEq::eq"]}
{"id": "C22", "title": "iter_recorded yields exactly the non-empty classes", "statement": "iter_recorded yields, in increasing order, exactly one item per class with a non-zero count, carrying the top value of the class, its count and the count since the previous item; it terminates.", "quantifier": "every reachable histogram", "why_tests_cant": "Arbitrary count patterns, including only-zero values and stale maxima.", "anchors": ["src/iterators/recorded.rs", "src/iterators/mod.rs: HistogramIterator::next"]}
{"id": "C23", "title": "iter_all yields every class exactly once", "statement": "iter_all yields every bin once, ascending, with its exact count.", "quantifier": "every reachable histogram", "why_tests_cant": "Arbitrary count patterns.", "anchors": ["src/iterators/all.rs", "src/iterators/mod.rs"]}
{"id": "C24", "title": "Iterators conserve counts", "statement": "For every picker, the sum of count_since_last_iteration over the yielded items equals the number of samples in the bins up to the last picked one; nothing is counted twice or skipped.", "quantifier": "every reachable histogram, every picker implementation", "why_tests_cant": "PickyIterator is a public trait: the claim ranges over all pickers.", "anchors": ["src/iterators/mod.rs: HistogramIterator, PickyIterator"]}
{"id": "C25", "title": "iter_linear steps and terminates", "statement": "iter_linear(step) yields levels step-1, 2*step-1, ... consecutively, each carrying exactly the samples in the bins up to the one holding that level and not reported before; it stops after all samples are reported; no panic as long as the levels fit in u64.", "quantifier": "every reachable histogram and every step > 0", "why_tests_cant": "Step sizes below, at and above the class width interact with every count pattern.", "anchors": ["src/iterators/linear.rs"]}
{"id": "C26", "title": "iter_log steps and terminates", "statement": "iter_log terminates, reports all samples and its levels never decrease.", "quantifier": "every reachable histogram, start > 0 and log base > 1", "why_tests_cant": "Float growth, saturating casts.", "anchors": ["src/iterators/log.rs"]}
{"id": "C27", "title": "iter_quantiles terminates at quantile 1.0", "statement": "iter_quantiles yields non-decreasing values and iteration quantiles, ends with quantile 1.0, and terminates.", "quantifier": "every reachable histogram and every ticks_per_half_distance > 0", "why_tests_cant": "Termination depends on float rounding near 1.0.", "anchors": ["src/iterators/quantile.rs"]}
{"id": "C28", "title": "value_at_quantile is monotone and rank-correct", "statement": "For q1 <= q2, value_at_quantile(q1) <= value_at_quantile(q2); the result is the class holding the sample of rank ceil(q*len) (rank computed in f64); q=0 gives the minimum's class and q>=1 the maximum's.", "quantifier": "every reachable histogram without saturation and every f64 quantile", "why_tests_cant": "All f64 inputs; rounding of the product.", "anchors": ["src/lib.rs: value_at_quantile, value_at_percentile"]}
{"id": "C29", "title": "quantile_below is the fraction at or below", "statement": "quantile_below(v) is the correctly rounded quotient of the number of samples in classes at or below v's and len(); it is monotone in v, in [0,1], and 1.0 at the maximum; counting the smaller half gives the same answer as counting the lower part.", "quantifier": "every reachable histogram and every value", "why_tests_cant": "Two code paths chosen by index.", "anchors": ["src/lib.rs: quantile_below, percentile_below"]}
{"id": "C30", "title": "count_between counts the inclusive class range", "statement": "count_between(a,b) is the saturated number of samples in classes from a's to b's inclusive, values beyond range clamped to the last class; additive over adjacent ranges.", "quantifier": "every reachable histogram and all a, b", "why_tests_cant": "Arbitrary ranges.", "anchors": ["src/lib.rs: count_between, count_at"]}
{"id": "C31", "title": "Core operations never panic", "statement": "On every histogram reachable through the public API no query or update panics (no failed expect, index out of bounds, or arithmetic overflow), except the cases that are exhibited.", "quantifier": "every reachable histogram and every argument", "why_tests_cant": "Panics hide in expects justified by informal invariants.", "anchors": ["src/lib.rs"]}
{"id": "C32", "title": "V2 serialization round trip", "statement": "deserialize(serialize(h)) succeeds for every h whose counts fit in i63 and gives back every count, low, high, sigfig and the recomputed len/min/max; the cases where == fails afterwards are characterised.", "quantifier": "every reachable histogram", "why_tests_cant": "Unbounded count patterns: run-length boundaries, varint length boundaries.", "anchors": ["src/serialization/v2_serializer.rs", "src/serialization/deserializer.rs"]}
{"id": "C33", "title": "serialize fails exactly on counts above i64::MAX", "statement": "V2 serialize returns CountNotSerializable iff some count exceeds i64::MAX, otherwise it writes exactly the returned number of bytes.", "quantifier": "every reachable histogram", "why_tests_cant": "Arbitrary counts and positions.", "anchors": ["src/serialization/v2_serializer.rs: encode_counts"]}
{"id": "C34", "title": "Varint and zig-zag codecs are inverse", "statement": "Every u64 survives varint_write / varint_read / varint_read_slice, using 1 to 9 bytes; every i64 survives zig-zag; both readers agree on every byte string.", "quantifier": "all u64, all i64, all byte strings", "why_tests_cant": "2^64 values.", "anchors": ["src/serialization/v2_serializer.rs: varint_write, zig_zag_encode", "src/serialization/deserializer.rs: varint_read, varint_read_slice, zig_zag_decode"]}
{"id": "C35", "title": "The serializer's buffer bounds and unchecked reads are safe", "statement": "The indices used with get_unchecked are always inside the counts array and the encoder never writes outside its reserved buffer; the length field never truncates.", "quantifier": "every reachable histogram", "why_tests_cant": "Memory safety must hold for all states.", "anchors": ["src/serialization/v2_serializer.rs: encode_counts, max_encoded_size"]}
{"id": "C36", "title": "Deserializer is total on arbitrary bytes", "statement": "For every byte string, deserialize returns a histogram or an error and any returned histogram satisfies all invariants of one built by recording (no panic in builds without overflow checks; the one debug-build overflow is exhibited).", "quantifier": "all byte strings, all counter types", "why_tests_cant": "Adversarial inputs.", "anchors": ["src/serialization/deserializer.rs: Deserializer::deserialize, deser_v2, on_decoded_num"]}
{"id": "C37", "title": "Truncated and foreign input is rejected", "statement": "Every strict prefix of a serialized histogram gives an i/o error; a wrong cookie gives InvalidCookie; nothing beyond the encoded histogram is consumed, so concatenated histograms can be read back one by one.", "quantifier": "every reachable histogram, every prefix, every suffix", "why_tests_cant": "All cut points.", "anchors": ["src/serialization/deserializer.rs"]}
{"id": "C38", "title": "Counter narrowing on deserialize", "statement": "Deserializing into a smaller counter type fails with UnsuitableCounterType iff some count does not fit, otherwise gives the same counts.", "quantifier": "every reachable histogram, every pair of counter types", "why_tests_cant": "Arbitrary counts.", "anchors": ["src/serialization/deserializer.rs: on_decoded_num"]}
{"id": "C39", "title": "Serializer and deserializer objects are reusable", "statement": "The result of (de)serialization does not depend on what the same (de)serializer object processed before.", "quantifier": "every buffer left by earlier use", "why_tests_cant": "Histories of buffer contents.", "anchors": ["src/serialization/v2_serializer.rs: V2Serializer", "src/serialization/deserializer.rs: Deserializer"]}
{"id": "C40", "title": "Compressed round trip", "statement": "With any lossless compressor, the deflate format decodes to the same histogram as the plain format and leaves trailing bytes unread.", "quantifier": "every reachable histogram, every lossless codec", "why_tests_cant": "Framing for all payload sizes.", "anchors": ["src/serialization/v2_deflate_serializer.rs", "src/serialization/deserializer.rs: deser_v2_compressed"]}
{"id": "C41", "title": "SyncHistogram never loses or duplicates a sample", "statement": "In every interleaving of any number of recorders (record, clone, drop, idle, reactivate) with a reader (refresh, refresh_timeout), each recorded sample is at every moment in exactly one of: the recorder's local histogram, the channel, the merged histogram.", "quantifier": "all schedules, all numbers of recorders, all histories", "why_tests_cant": "Schedules cannot be enumerated by tests.", "anchors": ["src/sync/mod.rs"]}
{"id": "C42", "title": "refresh after all recorders are gone sees everything", "statement": "Once every recorder has been dropped, the next refresh returns without waiting and the merged histogram holds every sample ever recorded.", "quantifier": "all schedules", "why_tests_cant": "Races between drop and refresh.", "anchors": ["src/sync/mod.rs: Drop for Recorder, refresh_inner"]}
{"id": "C43", "title": "refresh is a barrier for active recorders", "statement": "When refresh returns, every sample recorded before it was called by a recorder that stayed active is visible.", "quantifier": "all schedules", "why_tests_cant": "Needs rare interleavings.", "anchors": ["src/sync/mod.rs: refresh_inner, with_hist"]}
{"id": "C44", "title": "refresh cannot be blocked forever by recorders that keep writing or are idle", "statement": "While refresh waits, if every recorder is idle, dropped, or keeps recording, refresh eventually returns.", "quantifier": "all schedules", "why_tests_cant": "Deadlocks need rare interleavings.", "anchors": ["src/sync/mod.rs: refresh_inner, deactivate, reactivate"]}
{"id": "C45", "title": "Recorder bookkeeping", "statement": "The number of recorders refresh waits for equals the number of live non-idle recorders in every state; idle and reactivation keep it balanced.", "quantifier": "all schedules", "why_tests_cant": "Histories of clone/idle/drop.", "anchors": ["src/sync/mod.rs: Critical, Clone, Drop, deactivate, reactivate"]}
{"id": "C46", "title": "Interval log round trip", "statement": "Parsing what IntervalLogWriter wrote yields the same sequence of headers and intervals with the same tags, timestamps (to the millisecond) and base64 payloads.", "quantifier": "all logs (any number of comments, headers, intervals), all tags, durations and histograms", "why_tests_cant": "Unbounded text.", "anchors": ["src/serialization/interval_log/mod.rs"]}
{"id": "C47", "title": "Log parser is total, progresses, and is fused", "statement": "For every byte string the iterator terminates, every item consumes input, an error reports the offset of the offending line and is the last item.", "quantifier": "all byte strings", "why_tests_cant": "Adversarial inputs.", "anchors": ["src/serialization/interval_log/mod.rs: IntervalLogIterator::next, log_entry, ignored_line"]}
{"id": "C48", "title": "Tags cannot break the log format", "statement": "Tag::new accepts exactly strings without comma, CR, LF and space, and any accepted tag is read back unchanged.", "quantifier": "all strings", "why_tests_cant": "Injection.", "anchors": ["src/serialization/interval_log/mod.rs: Tag"]}
{"id": "C49", "title": "Comments never alter parsed data", "statement": "A comment written with write_comment, whatever its text, is ignored by the parser.", "quantifier": "all comment strings", "why_tests_cant": "Injection via crafted text.", "anchors": ["src/serialization/interval_log/mod.rs: write_comment, comment_line, start_time"]}
{"id": "C50", "title": "A failed write_histogram does not corrupt the log", "statement": "If serialization fails, the log written so far and afterwards still parses to the successfully written intervals.", "quantifier": "all sequences of writes with failures", "why_tests_cant": "Failure injection at any point.", "anchors": ["src/serialization/interval_log/mod.rs: InternalLogWriter::write_histogram"]}
{"id": "C51", "title": "mean and stdev", "statement": "mean() lies between the smallest and largest class medians up to float rounding; stdev() is non-negative; both are 0 for an empty histogram.", "quantifier": "every reachable histogram", "why_tests_cant": "Float accumulation over arbitrary data.", "anchors": ["src/lib.rs: mean, stdev"]}
{"id": "C52", "title": "Statistics after subtract", "statement": "After a successful subtract, max and min report the extremes of the samples that remain, and subtracting what was just added gives back an equal histogram.", "quantifier": "every pair of reachable histograms", "why_tests_cant": "Depends on which extreme classes happen to be emptied by the subtraction.", "anchors": ["src/lib.rs: Histogram::subtract, restat, RestatState"]}
{"id": "C53", "title": "Post-recording correction for coordinated omission", "statement": "add_correct, set_to_corrected and clone_correct record, for every class the source holds, its top value with its count together with the values missing below it at the expected interval; clone_correct always succeeds and with interval 0 copies the samples.", "quantifier": "every pair of reachable histograms, every interval", "why_tests_cant": "Ranges over arbitrary sample distributions and intervals; failure part-way through depends on the data.", "anchors": ["src/lib.rs: clone_correct, set_to_corrected, add_correct"]}
{"id": "C54", "title": "The bytes written follow the V2 format", "statement": "What V2Serializer writes is the V2 format of the histogram: the fixed header with its parameters, then numbers (zig-zag, LEB128-64b9B) that expand to exactly its counts up to the class of the maximum, zero runs of two or more as one negative number.", "quantifier": "every reachable histogram", "why_tests_cant": "Interoperability with other implementations for every distribution of counts and zero runs.", "anchors": ["src/serialization/v2_serializer.rs: V2Serializer::serialize, encode_counts, varint_write, zig_zag_encode"]}
{"id": "C55", "title": "Images of other implementations are read correctly", "statement": "Any well-formed V2 image, whatever way its writer chose to encode runs of zeros, is read back as the counts it stands for, if its parameters are acceptable and its counts fit the counter type and the range.", "quantifier": "all parameters, all sequences of numbers", "why_tests_cant": "The deserializer must accept encodings this crate never writes; tests only use its own output and a few files.", "anchors": ["src/serialization/deserializer.rs: Deserializer::deserialize, deser_v2, DecodeLoopState::on_decoded_num"]}
{"id": "C56", "title": "refresh never panics", "statement": "refresh and refresh_timeout never panic: merging a recorder's histogram into the SyncHistogram cannot fail, whatever was recorded and however the threads interleave.", "quantifier": "every interleaving of recorders and reader, every histogram configuration", "why_tests_cant": "Depends on the ranges of the histograms at the moment of the merge, which only rare schedules and values bring apart.", "anchors": ["src/sync/mod.rs: SyncHistogram::refresh_inner", "src/lib.rs: Histogram::add"]}
{"id": "C57", "title": "The short forms of recording and merging", "statement": "record, saturating_record and record_correct store each value once; += with a value records it; + and += between histograms give what add gives, - and -= what subtract gives, and each panics exactly where the long form returns an error; Sum adds the histograms one after another, is an empty histogram for none, and never panics on histograms of one configuration holding nothing at u64::MAX, where counts and len add up; auto changes nothing but the resizing.", "quantifier": "every reachable histogram, every list of reachable histograms, all values and intervals", "why_tests_cant": "Panics of the operators depend on the ranges of both operands; sums range over lists of any length.", "anchors": ["src/lib.rs: record, saturating_record, record_correct, auto, AddAssign, Add, SubAssign, Sub, Sum"]}
{"id": "C58", "title": "Percentile forms", "statement": "value_at_percentile(p) reports the class of the sample of rank p/100 of len (rounded), is monotone in p, gives the lowest class at 0 and the highest from 100 on; percentile_below and IterationValue::percentile are 100 times the quantile, rounded once, and lie between 0 and 100.", "quantifier": "every reachable histogram, every finite f64 percentile, every value", "why_tests_cant": "Rounding of the division by 100 and of the product can shift the rank by one for particular inputs.", "anchors": ["src/lib.rs: value_at_percentile, percentile_below", "src/iterators/mod.rs: IterationValue::percentile"]}
{"id": "C59", "title": "Size of the bin array", "statement": "The bins are laid out as buckets() octaves of a power-of-two number of steps between 2*10^sigfig and 4*10^sigfig; there are exactly as many octaves as high() needs; so the number of bins is bounded by the precision alone (65, 976, 7424, 56320, 835584, 6291456 for 0 to 5 digits) whatever is recorded, and the bound is reached by the full u64 range.", "quantifier": "every reachable histogram", "why_tests_cant": "Covers every configuration and every resizing history.", "anchors": ["src/lib.rs: buckets_to_cover, num_bins, resize, distinct_values, buckets"]}
{"id": "C60", "title": "The order of recording does not matter", "statement": "Recording a list of samples in any order is accepted or rejected alike and gives the identical histogram, counters saturating and bins growing or not; recording it in shards that are then added together gives the same samples, and the same statistics if nothing saturates.", "quantifier": "every reachable histogram, every list of samples and permutation of it, every partition into shards", "why_tests_cant": "Permutations and partitions of unbounded lists, with saturation and resizing interleaved.", "anchors": ["src/lib.rs: record_n, Histogram::add, resize"]}
{"id": "C61", "title": "Quantiles of the raw data", "statement": "value_at_quantile(q) is equivalent to, and within the configured resolution of, the raw sample of rank ceil(q*n) in sorted order; the rank used differs from the exact one by at most one step of rounding.", "quantifier": "every configuration, every list of recorded samples, every f64 quantile", "why_tests_cant": "The end-to-end error bound ranges over all data sets; tests compare a few fixed ones.", "anchors": ["src/lib.rs: record_n, value_at_quantile"]}
{"id": "C62", "title": "Mean of the raw data", "statement": "mean() differs from the exact mean of the raw samples by at most half the unit (rounded down) plus half of the mean divided by 10^sigfig, apart from floating point rounding.", "quantifier": "every configuration, every list of recorded samples", "why_tests_cant": "The end-to-end error bound ranges over all data sets.", "anchors": ["src/lib.rs: record_n, mean, median_equivalent"]}
{"id": "C63", "title": "The reported extremes are always bounds", "statement": "Whatever was done to a histogram, including records of zero samples, saturated counters, resizing, narrowing deserialization and a subtract that failed half way: max() is at or above every sample held and is covered by the bins, min() and min_nz() are at or below every (non-zero) sample held, up to equivalence, and len() is at least the number of samples held; while len() is that number, min() does not exceed max().", "quantifier": "every reachable histogram, every value", "why_tests_cant": "An invariant of unbounded sequences of mutating calls, including failing ones.", "anchors": ["src/lib.rs: max, min, min_nz, len, record_n_inner, Histogram::subtract, restat"]}
{"id": "C64", "title": "Which images are accepted", "statement": "Plain input is accepted exactly if it is a V2 header with offset 0, conversion ratio 1.0 and parameters a histogram can be created with, followed by as many payload bytes as announced, which encode (possibly with needless bytes) counts that fit the counter type and the range; the result then has exactly those parameters and counts and nothing more of the input is consumed. Every other header or payload gives the error that describes its first defect, truncated input gives an i/o error, and the compressed form is accepted exactly if what is decompressed from the announced bytes is.", "quantifier": "every byte string, every counter type, every decompressor, builds with and without overflow checks", "why_tests_cant": "The inputs are arbitrary byte strings; fuzzing samples them and cannot show that acceptance coincides with the format.", "anchors": ["src/serialization/deserializer.rs: deserialize, deser_v2, deser_v2_compressed, DecodeLoopState::on_decoded_num"]}
{"id": "C65", "title": "The serialized form is canonical", "statement": "The serializer writes a run of zeros as one number and a single zero as a zero count, and no other sequence of that kind stands for the same counts; two histograms are written as the same bytes exactly if bounds, precision and samples are the same and the maxima are in the same class; writing what was read back gives the same bytes.", "quantifier": "every pair of reachable histograms, any contents of the serializers' buffers", "why_tests_cant": "Injectivity over all pairs of histograms.", "anchors": ["src/serialization/v2_serializer.rs: encode_counts, serialize", "src/serialization/deserializer.rs: deserialize"]}
{"id": "C66", "title": "The language of interval logs", "statement": "The log iterator delivers given entries without an error exactly if the input is a sequence of lines, each ended by a line feed, that are a StartTime or BaseTime header, an interval (optional tag up to a comma, two numbers of seconds, a maximum, UTF-8 text without its trailing carriage returns), a legend, or any other line starting with a hash, and say those entries; otherwise it delivers what the longest such prefix says and then one error with the offset at which the prefix ends. Seconds are a u64 with an optional plus sign, a point and at least one digit, of which the first nine count; a maximum is a decimal number or nan or inf in any case. No input can be read in two ways.", "quantifier": "every byte string, every behaviour of f64::from_str", "why_tests_cant": "The inputs are arbitrary byte strings; that the accepted set is exactly the language cannot be sampled.", "anchors": ["src/serialization/interval_log/mod.rs: IntervalLogIterator::next, log_entry, interval_hist, start_time, base_time, ignored_line, fract_sec_duration"]}
{"id": "C67", "title": "The text of an interval log", "statement": "A log written without an error is: the configured comments, one line after a hash for every line of them; the start time and the base time if configured, in seconds with three places and a minus sign before the epoch; the divisor unless it is 1.0; and then for each call the lines of the comment, or one line with the tag, start, length, maximum divided by the divisor, all with three places rounded to nearest even, and the serialized histogram in padded base64. This determines every byte. The maximum read back is the quotient rounded to thousandths, for every positive divisor.", "quantifier": "every configuration and sequence of calls, every reachable histogram, every duration and divisor, every serializer", "why_tests_cant": "The text ranges over all durations, divisors and values, where decimal and binary rounding interact.", "anchors": ["src/serialization/interval_log/mod.rs: IntervalLogWriterBuilder::begin_log_with, add_comment, write_comment, write_histogram, duration_as_fp_seconds, system_time_as_fp_seconds"]}
{"id": "C68", "title": "Readers and writers that work in pieces or fail", "statement": "The outcome of deserialize depends only on the bytes the reader delivers before it stops, not on the pieces or interruptions in which they come; after a plain image the reader is left right behind it; a failure of the reader is passed on as its own error unless the whole image had been read. serialize reports success and the length exactly when the writer has taken the whole image; a failing writer has received a front part of it and its error is passed on; a histogram that cannot be serialized writes nothing; and the same histogram and serializer can be used again after any failure.", "quantifier": "every way of splitting and interrupting reads and writes, every position and kind of failure, every byte string, every reachable histogram", "why_tests_cant": "Tests use in-memory slices and vectors; the splits and failures of real streams are unbounded.", "anchors": ["src/serialization/deserializer.rs: deserialize, deser_v2, deser_v2_compressed", "src/serialization/v2_serializer.rs: serialize", "src/serialization/v2_deflate_serializer.rs: serialize"]}
{"id": "C69", "title": "Refresh returns if everybody goes on", "statement": "In every execution without end in which each recorder that is not idle or dropped is used again and again, recorders are cloned only finitely often and the reader is not starved, a running refresh returns - provided no recorder on its way to idle looks at the phase between the reader's counting the recorders and its moving the phase. refresh_timeout returns even if nobody records again, as long as whoever holds the mutex releases it. Neither condition can be left out: an unused recorder, or cloning and dropping for ever, keeps refresh from returning.", "quantifier": "every infinite interleaving of any number of recorders with the reader, every state in which refresh is running", "why_tests_cant": "Liveness: it speaks of infinite executions, and a test that has not finished yet proves nothing.", "anchors": ["src/sync/mod.rs: SyncHistogram::refresh_inner, refresh, refresh_timeout, Recorder::with_hist, IdleRecorder, Drop"]}
{"id": "C70", "title": "Recording never waits", "statement": "A call of a recording method takes three steps of its own thread, each possible at once whatever the reader and other recorders have done in between, even if the mutex is held for ever. Whoever holds the mutex can release it with at most two steps of their own.", "quantifier": "every reachable state, every call with valid arguments, every interleaving of steps of other threads in between", "why_tests_cant": "Wait-freedom is a claim about all interleavings; a test sees the ones the scheduler happens to choose.", "anchors": ["src/sync/mod.rs: Recorder::with_hist, update, deactivate, reactivate, Drop"]}
{"id": "C71", "title": "When a sample becomes visible", "statement": "A refresh that returns, timed out or not, has merged everything the recorders had handed over when it was called. A call on a recorder has been handed over once the recorder is dropped, or once a refresh has moved the phase and the recorder has afterwards completed a call or gone idle (without waking from idle in between). So it is visible after at most one more refresh, whatever other recorders do meanwhile. The exception is real: a recorder that goes idle after each call and is woken only after the next refresh has returned never hands over anything.", "quantifier": "every interleaving of any number of recorders with the reader, every history of calls; for the exception every number of calls", "why_tests_cant": "Visibility under all interleavings, and a starvation that needs unboundedly many rounds.", "anchors": ["src/sync/mod.rs: SyncHistogram::refresh_inner, Recorder::with_hist, deactivate, IdleRecorder::reactivate, Drop"]}
{"id": "C72", "title": "Standard deviation of the raw data", "statement": "stdev() differs from the exact standard deviation of the raw samples by at most half the unit (rounded down) plus half of their root mean square divided by 10^sigfig, apart from floating point rounding, for which a bound is given too.", "quantifier": "every configuration, every list of recorded samples", "why_tests_cant": "The end-to-end error bound ranges over all data sets, and nearly equal samples make the subtraction of the mean delicate.", "anchors": ["src/lib.rs: record_n, stdev, mean, median_equivalent"]}
{"id": "C73", "title": "What does not depend on sequential consistency", "statement": "With the memory orderings the code asks for, a load of the phase may return an outdated value. Whatever the loads return: every call made on a recorder is in exactly one histogram; without saturation each histogram holds exactly the samples of its calls; refresh does not panic; the number of recorders in use is right; recording never waits; a refresh merges what had been handed over; dropping hands over everything; a call is handed over once its recorder has seen a later phase, and by going idle at the latest after two moves of the phase; with all recorders idle or dropped refresh returns with everything. A load is outdated by at most the moves of the phase since the thread last had the mutex.", "quantifier": "every interleaving of any number of recorders with the reader, every outcome of every load that release/acquire memory allows", "why_tests_cant": "Outdated loads depend on the processor and the compiler; on common hardware most of them never show up in a test.", "anchors": ["src/sync/mod.rs: Recorder::with_hist, deactivate, IdleRecorder::reactivate, SyncHistogram::refresh_inner, Clone, Drop (Ordering::Acquire, Ordering::AcqRel)"]}
{"id": "C74", "title": "Refresh with outdated loads of the phase", "statement": "The guarantees that a refresh collects what active recorders have, and that a waiting refresh waits for somebody who will send, also hold when recorders that record see outdated phases: refresh then just waits longer. Recorders that become idle or wake up during the refresh have to see the latest phase; if one wakes up, or becomes idle, just after the phase has moved and does not see it, samples of another recorder can be missed, or refresh never returns.", "quantifier": "every interleaving and every outcome of every load that release/acquire memory allows, subject to the stated conditions", "why_tests_cant": "Depends on the interleaving and on which values the memory system lets each load return.", "anchors": ["src/sync/mod.rs: SyncHistogram::refresh_inner, Recorder::with_hist, deactivate, IdleRecorder::reactivate"]}
{"id": "C75", "title": "Builds without overflow checks", "statement": "A release build computes what a checked build computes wherever that one does not panic: value_at_quantile and the linear iterator give the same results. Where the checked build would panic, value_at_quantile of a release build reports the first class at which the number of samples so far, modulo 2^64, reaches the rank (0 if there is none), and the linear iterator never panics; then quantiles can be far off and the values reported by the iterator can decrease.", "quantifier": "every reachable histogram, every quantile including NaN and infinities, every positive step, any number of items", "why_tests_cant": "The two profiles differ only for totals near 2^64 or steps near the top of the range; tests run in one profile.", "anchors": ["src/lib.rs: value_at_quantile, value_for, value_from_loc", "src/iterators/linear.rs: pick, more"]}
{"id": "C76", "title": "Refresh returns under release/acquire memory", "statement": "With loads of the phase that may return outdated values, refresh still returns if recorders and reader go on, every move of the phase becomes visible to the loads some time, no recorder becomes idle during the refresh without seeing the latest phase, and the conditions of C69 hold. refresh_timeout returns even if no move of the phase ever becomes visible. Visibility is needed: with a recorder that records for ever without ever seeing the phase move, refresh never returns.", "quantifier": "every infinite execution and every outcome of every load that release/acquire memory allows, subject to the stated conditions", "why_tests_cant": "Liveness is about infinite executions, and here also about what the memory system does in the limit.", "anchors": ["src/sync/mod.rs: SyncHistogram::refresh, refresh_timeout, refresh_inner, Recorder::with_hist"]}
{"id": "C77", "title": "The command line program reports what was typed", "statement": "The lines of any input are determined. If every line is a u64 that the histogram takes, serialize records each once and writes the histogram; otherwise nothing is written: a line that is not a number makes it panic, a number out of range is an error, and the first such line decides. Piping the output into iter-quantiles prints a report that agrees with the typed numbers: the total of a row is the number of typed numbers up to its value; the value is that of a typed number, up to the precision, and the first whose fraction reaches the quantile of the row; the rows start at quantile 0, end at 1 with all numbers counted, values never decrease; length, maximum, mean and standard deviation are those of the numbers, up to the precision and rounding.", "quantifier": "every input text, every valid min, max and sigfig, with or without resize and compression, every number of ticks", "why_tests_cant": "End to end over all inputs: parsing, recording, both formats, the iterator and the statistics; the program has no tests.", "anchors": ["examples/cli.rs: main, serialize, quantiles"]}
{"id": "C78", "title": "Every sample is delivered in the end", "statement": "If the reader calls refresh or refresh_timeout again and again, every call made on a recorder that makes calls again and again and becomes idle only finitely often is in the merged histogram from some moment on, whatever the other threads do and however many refreshes have gone before; so is every call made on a recorder that is dropped. With refresh_timeout it need not be assumed that refreshes return. The one exception: a recorder that makes its next call only after the phase counter has wrapped around exactly, after 2^64 refreshes, keeps its samples.", "quantifier": "every infinite execution of any number of recorders with the reader, every call", "why_tests_cant": "Liveness is about infinite executions; wrap-around of the phase counter needs 2^64 refreshes.", "anchors": ["src/sync/mod.rs: Recorder::with_hist, deactivate, Drop for Recorder, SyncHistogram::refresh, refresh_timeout, refresh_inner"]}
{"id": "C79", "title": "Construction does not depend on the platform's logarithm", "statement": "With low up to 2^40, new, new_with_max and new_with_bounds give the same histogram, or the same error, whichever C library computes the logarithm, provided that it is exact on powers of two, monotone and off by less than 2^-41. For larger low they never panic, and if the result depends on the library at all, low is less than one part in 2^40 below a power of two, and values are divided into classes as with that power of two, or half of it, as low.", "quantifier": "every admissible logarithm, every counter type, low, high and number of digits", "why_tests_cant": "Tests see the library of one platform; the statement ranges over all of them.", "anchors": ["src/lib.rs: Histogram::new, new_with_max, new_with_bounds"]}
{"id": "C80", "title": "The width of usize does not change what a histogram does", "statement": "On a target whose usize has at least 32 bits, construction, recording, correction, merging, subtraction and copying give exactly what they give on a 64-bit target. On a target of any width, a constructor gives the same histogram, or the same error, if the array of counts can be allocated (at most isize::MAX bytes), UsizeTypeTooSmall if the number of bins does not fit a usize, and a panic in between; recording, recording with correction, add and set_to likewise give the same result, or ResizeFailedUsizeTypeTooSmall with nothing recorded or added, or a panic; correction after recording gives the same result if that can be allocated; subtraction, saturating recording and all queries and iterators on a histogram that could be allocated answer as on a 64-bit target.", "quantifier": "every width of usize, every counter type, parameters, reachable histogram and argument", "why_tests_cant": "Tests run on the widths of the machines at hand, mostly 64 bits only.", "anchors": ["src/lib.rs: new_with_bounds, resize, index_for, value_for, record_n_inner, add, subtract, restat, value_at_quantile, quantile_below, count_between", "src/iterators/mod.rs: HistogramIterator::next"]}
{"id": "C81", "title": "Serialized histograms are exchanged between targets of different widths", "statement": "On a target whose usize has at least 32 bits, serializing a histogram gives the bytes that a 64-bit target gives, and those bytes are read back on every target of 32 to 64 bits, as the same histogram. Reading arbitrary bytes there gives what it gives on a 64-bit target, or UsizeTypeTooSmall, and panics where a 64-bit target does not only if the header claims a payload of more than isize::MAX bytes. On narrower targets serializing gives the same bytes if its buffer, of at most nine bytes per bin and the header, can be allocated, UsizeTypeTooSmall if the size does not fit a usize, and a panic in between.", "quantifier": "every width of usize, every reachable histogram, every byte string, every content of the reused buffer", "why_tests_cant": "Tests run on the widths of the machines at hand and feed a few byte strings.", "anchors": ["src/serialization/v2_serializer.rs: V2Serializer::serialize, max_encoded_size, encode_counts", "src/serialization/v2_deflate_serializer.rs: V2DeflateSerializer::serialize", "src/serialization/deserializer.rs: Deserializer::deserialize, deser_v2, DecodeLoopState::on_decoded_num"]}
{"id": "C82", "title": "Every sample is delivered in the end under release/acquire memory", "statement": "With loads of the phase that may return outdated values, if the reader calls refresh or refresh_timeout again and again and every move of the phase becomes visible to the loads some time, every call made on a recorder that makes calls again and again and becomes idle only finitely often is in the merged histogram from some moment on, unless 2^64 moves of the phase lie between the values it sees in two calls; every call made on a recorder that is dropped is merged even if no move ever becomes visible. With refresh_timeout it need not be assumed that refreshes return. A call whose load returns an outdated value hands over nothing; the first later one that sees a newer value hands over everything before it. Without visibility a recorder that records for ever hands over nothing.", "quantifier": "every infinite execution and every outcome of every load that release/acquire memory allows, subject to the stated conditions; every number of refreshes", "why_tests_cant": "Liveness is about infinite executions, and here also about what the memory system does in the limit.", "anchors": ["src/sync/mod.rs: Recorder::with_hist, deactivate, Drop for Recorder, SyncHistogram::refresh, refresh_timeout, refresh_inner"]}
{"id": "C83", "title": "The concurrent histogram in builds without overflow checks", "statement": "In a build without overflow checks, as long as no guard of an idle recorder is forgotten and there are fewer than usize::MAX recorders, the executions are those of a checked build. In any case no sample is lost or counted twice, every histogram contains the samples of its calls, refresh does not panic, the mutex is never poisoned and whoever holds it can go on, the number of recorders is off by the number of forgotten guards modulo 2^64, and refresh_timeout is never stuck and returns if clones end and everybody who holds the mutex goes on, whatever has been forgotten before. Whatever is forgotten, a recorder that sees a newer phase hands over every call it has made, a dropped one hands over everything, and under the conditions of the checked case every sample is delivered in the end. (A plain refresh can be stuck, after a guard has been forgotten and its recorder dropped: it waits for 2^64 - 1 histograms.)", "quantifier": "every execution of any number of recorders and one reader, every outcome of every load that release/acquire memory allows, with or without forgotten guards", "why_tests_cant": "Tests are run with overflow checks on; a forgotten guard shows only in later calls of other threads.", "anchors": ["src/sync/mod.rs: Recorder::idle, Recorder::clone, Drop for Recorder, Drop for IdleRecorder, IdleRecorder::activate, IdleRecorder::recorder, SyncHistogram::recorder, refresh, refresh_timeout"]}
{"id": "C84", "title": "The concurrent histogram on targets with a usize of 32 to 64 bits", "statement": "With a usize of B bits, 32 to 64, as long as there are fewer than 2^B refreshes and fewer than 2^B - 1 recorders the executions are those of a 64-bit target. In any case no sample is lost or counted twice, every histogram contains the samples of its calls, refresh does not panic, and the number of recorders fits a usize; unless guards are forgotten it is the number of recorders in use, and only usize::MAX recorders can poison the mutex. However many refreshes there have been, a recorder that reads a phase newer by less than 2^B than the one it read last, without having woken from idle in between, hands over every call it has made, and under the conditions of the 64-bit case every sample is delivered in the end. refresh_timeout returns if the mutex is not poisoned, clones end and everybody who holds the mutex goes on. (One whose calls are 2^B refreshes apart never hands over anything: the phase has wrapped around. On a 32-bit target that takes 2^32 refreshes.)", "quantifier": "every width of 32 to 64 bits, every execution of any number of recorders and one reader, every outcome of every load that release/acquire memory allows", "why_tests_cant": "Tests run on the widths of the machines at hand, and for far fewer than 2^32 refreshes.", "anchors": ["src/sync/mod.rs: Recorder::with_hist, idle, clone, Drop for Recorder, IdleRecorder::activate, recorder, SyncHistogram::recorder, refresh, refresh_timeout"]}
{"id": "C85", "title": "The concurrent histogram in builds without overflow checks on targets with a usize of 32 to 64 bits", "statement": "In a build without overflow checks with a usize of B bits, 32 to 64, as long as no guard of an idle recorder is forgotten and there are fewer than 2^B - 1 recorders, the executions are those of a checked build for the same target; with 64 bits they are always those of a 64-bit build without overflow checks. In any case no sample is lost or counted twice, every histogram contains the samples of its calls, refresh does not panic, the mutex is never poisoned and whoever holds it can go on, the number of recorders is off by the number of forgotten guards modulo 2^B, and refresh_timeout is never stuck and returns if clones end and everybody who holds the mutex goes on. Forgotten guards or not, a recorder that reads a phase newer by less than 2^B than the one it read last, without having woken from idle in between, hands over every call it has made, a dropped one hands over everything, a refresh that returns has merged all that had been handed over, and under the conditions of the 64-bit case every sample is delivered in the end. (A plain refresh can be stuck after a guard has been forgotten: with 32 bits it waits for 2^32 - 1 histograms.)", "quantifier": "every width of 32 to 64 bits, every execution of any number of recorders and one reader, every outcome of every load that release/acquire memory allows, with or without forgotten guards", "why_tests_cant": "Tests are run with overflow checks on, and on the widths of the machines at hand.", "anchors": ["src/sync/mod.rs: Recorder::idle, Recorder::clone, Drop for Recorder, Drop for IdleRecorder, IdleRecorder::activate, IdleRecorder::recorder, SyncHistogram::recorder, refresh, refresh_timeout"]}
