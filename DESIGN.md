# A formal model of HdrHistogram_rust 7.5.4 in Coq 8.16.1

`properties.jsonl` lists the properties, `MANIFEST.json` the theorems that settle each of them,
`ASSUMPTIONS.md` what `Print Assumptions` says about every one of those theorems, and
`seeded/LOG.jsonl` the wrong programs the theorems were tried on.  This file says what is modelled,
how, what is trusted, and what was found out about the code.

Build: `cd rocq && coq_makefile -f _CoqProject -o Makefile && make -j4` (about twenty minutes).

## 1. How to read the development

| files in `rocq/theories` | content |
|---|---|
| `Machine.v` | machine integers, panics, counter types, vectors |
| `HistModel.v`, `Log2Model.v` | `src/lib.rs`: index arithmetic, construction, recording, merging, integer queries |
| `FloatModel.v`, `IterModel.v` | `f64`; the iterators and every query that uses `f64` or an iterator |
| `SerModel.v` | the serializers and the deserializer, byte by byte |
| `SyncModel.v` | `Recorder`, `IdleRecorder`, `SyncHistogram` as a transition system |
| `LogModel.v` | interval log writer and parser, byte by byte |
| `IoModel.v` | the serializers and the deserializer over any `Write` and `Read` |
| `WeakModel.v` | `SyncModel` with the memory orderings of the code |
| `ReleaseModel.v` | builds without overflow checks: the code of `src/lib.rs` and `src/iterators/linear.rs` that can overflow |
| `ReleaseSyncModel.v` | `WeakModel` in builds without overflow checks: the number of recorders wraps around |
| `WidthSyncModel.v` | `WeakModel` with a `usize` of 32 to 64 bits: width of the phase and of the number of recorders |
| `WidthReleaseModel.v` | both at once: no overflow checks and a `usize` of 32 to 64 bits |
| `CliModel.v` | `examples/cli.rs` |
| `*Spec.v` | vocabulary of the theorem statements: small definitions that do not mention the model's helpers |
| `Reach.v` | the histograms a program can build: every constructor and every mutator |
| `Props_*.v` | the theorems, each with a concrete case meeting its hypotheses and `Print Assumptions`; nothing else |
| `Witness.v`, `Cases*.v` | for the concrete cases: histograms built by recording, and decision procedures for the hypotheses that quantify over values or steps, each proved right |
| `Pf*.v`, `*Facts.v`, all others | lemmas and proofs |

Every definition of a model file carries a comment citing the lines of /repo it models
(`tools/cite.py` checks this).

### Conventions

* All machine integers are `Z`; widths are enforced by *checked* operations (`u64_add`, `u8_sub`,
  `u64_shl`, ...) that give `Panic` when a build with overflow checks panics.  A theorem that
  concludes `Ret ...` therefore says that there is no overflow, no failed `expect`, `assert!` or
  `debug_assert!`, and no index out of bounds, and hence that debug and release builds agree.
* `res A = Ret a | Panic`.  Rust's `Result` is data (`ROk`, `RErr`).  A `&mut self` method returns
  the new value together with its result, on the error branch too, so half-done updates are visible.
* The type parameter `T: Counter` is the field `h_ctr : counter` (`U8 | U16 | U32 | U64`), a ghost:
  all of `Histogram<u8>` ... `Histogram<u64>` are covered by one theorem.
* Loops are structural recursion over lists or index ranges, or fuel with `Panic` when it runs out;
  that it never does is part of the `Ret` conclusions.
* Concurrency: `step : state -> label -> option state`, one access to shared memory per step; a theorem
  about every list of labels is one about every interleaving of any number of threads.

## 2. Trusted base

1. **The kernel of Coq 8.16.1** (`vm_compute` is used in witnesses and in a few closed goals).
   No axiom, parameter, functor, module type or `Admitted` in the development; no kernel check
   switched off.
2. **Axioms of the standard library**, for the theorems that mention real numbers (Flocq's `f64`
   and Coq's reals): `ClassicalDedekindReals.sig_forall_dec`, `ClassicalDedekindReals.sig_not_dec`,
   `FunctionalExtensionality.functional_extensionality_dep`, `Classical_Prop.classic`.  All others are
   closed under the global context.  `ASSUMPTIONS.md` has the list per theorem.  (The concurrent and
   iterator theorems inherit the axioms because the items of an iterator carry `f64` fields.)
3. **The model is the code.**  The definitions were written by reading /repo; nothing was executed.
4. **What the model takes for granted**
   * a 64-bit target (`usize` is 64 bits), except in C80, C81, C84 and C85: `WidthModel.v` repeats every function that
     computes with `usize`, for an arbitrary width, and the properties say how the results relate; `WidthSyncModel.v` and `WidthReleaseModel.v` do so for
     `sync`.  The log, the streams and the command line program are not repeated;
   * allocation succeeds (in C80 and C81, up to `isize::MAX` bytes, beyond which `Vec` panics); a `Vec` is a list;
   * `log2` of the C library at construction (`src/lib.rs:760, 770`) is correctly rounded.  `Log2Model.v`
     is an integer computation; `Log2Spec.v` proves that it is the floor of the correctly rounded
     logarithm of the correctly rounded argument, and the same for the ceiling at line 770.  C79 is about
     the constructor as written, with an arbitrary `log2` (`LibmModel.v`): for `low` up to 2^40 every
     `log2` that is exact on powers of two, monotone and off by less than 2^-41 gives the same histogram, so
     correct rounding is needed for larger `low` only;
   * `log2` in `iter_quantiles` is an arbitrary function satisfying `log2_ok` (`QuantSpec.v`): monotone
     enough, exact on powers of two, off by less than 2^-41.  It is a hypothesis of the C27 theorems;
   * `f64` operations round to nearest even (IEEE 754, Flocq's `BinarySingleNaN`); `as` casts from
     `f64` saturate; one NaN;
   * the compressor is a pair of functions `codec`; what each theorem needs of it is a hypothesis
     (`deflate` then `inflate` is the identity; delivers bytes, consumes no more than there are);
   * `read_exact` and `write_all` are the loops of the standard library; a streaming decompressor delivers
     what the decompressor makes of the bytes (`decodes`, a hypothesis of C68_outcome);
   * `f64::from_str` is an arbitrary function `f64_reader`; theorems that need it to read decimal
     numbers say so (`reads_numbers`, `rounds_numbers`);
   * nom 7.1's combinators, `base64` encoding, UTF-8 validation, `{:.3}` formatting and
     integer parsing are modelled, from their documentation;
   * the crossbeam channel is an atomic FIFO queue; a mutex is fair to nobody in particular; time limits
     may expire at any moment;
   * for C41-C45, C56, C69-C71 and C78 memory is sequentially consistent.  C73, C74, C76, C82 (`WeakModel.v`), C83 (`ReleaseSyncModel.v`), C84 (`WidthSyncModel.v`) and C85 (`WidthReleaseModel.v`) drop this for
     the one location that is accessed outside the mutex and the channel, `phase`: a load may return any
     value that release/acquire memory allows.  Mutex and channel remain atomic.

## 3. What is modelled

| /repo | modelled as | not modelled |
|---|---|---|
| `src/core/counter.rs` | `counter`, `cmax`, `csat_add`, `cchecked_*` | |
| `src/lib.rs` accessors 302-352 | `distinct_values` ... `is_auto_resize` | `count()`, a deprecated alias of `len()` |
| `src/lib.rs` index arithmetic 358-404, 1464-1512, 1532-1640 | `index_for` ... `num_bins` | |
| construction 697-845 | `new`, `new_with_max`, `new_with_bounds`, `new_from` | |
| recording 849-976 | `record_n_inner` and the six public forms | |
| merging 427-655, 1787-1861 | `add` (three paths), `add_correct`, `subtract`, `set_to(_corrected)`, `clone_correct`, operators, `Sum` | `#[derive(Clone)]`: a value is its own copy |
| 661-686, 1646-1780 | `clear`, `reset`, `auto`, `resize`, `restat` | |
| queries 1252-1460 | `min` ... `count_at`, `mean`, `stdev`, quantiles | |
| `PartialEq` 1869-1890, `AddAssign<u64>` 1862 | `hist_eq`, `add_assign_u64` | |
| `src/iterators/*` | engine `iter_next` over an arbitrary picker; five pickers | `Debug` |
| `src/serialization/v2_serializer.rs`, `v2_deflate_serializer.rs`, `deserializer.rs` | `v2_serialize`, `v2_deflate_serialize`, `deserialize` with all error values; over streams that split, interrupt and fail: `io_v2_serialize`, `io_v2_deflate_serialize`, `io_deserialize` | the growth of the buffers (their contents between calls are arbitrary in every theorem) |
| `src/serialization/interval_log/mod.rs` | writer (with a sink that fails where it likes), `Tag::new`, parser, iterator | `text_buf` reuse; `Deref` |
| `src/sync/mod.rs` | all methods, `Drop`, `Clone`, guards; five times: interleavings (`SyncModel`), interleavings with outdated loads of `phase` (`WeakModel`), those in builds without overflow checks (`ReleaseSyncModel`), those with a narrower `usize` (`WidthSyncModel`), and with both (`WidthReleaseModel`) | `Deref`; (`with_hist` is private, and the operations passed to it return, C31) |
| `src/errors/mod.rs` | the error values | `Display`, `Error::source` |
| `examples/cli.rs` | `main_serialize`, `cli_serialize`, `cli_quantiles` | parsing of the command line (clap), widths and decimals of the printed numbers, failing writes to standard output |
| `src/serialization/rand_varint.rs`, tests, benches | | test code |

Simplifications are repeated at the definitions concerned.

## 4. Per property: what is stated and how it is proved

`M` is the model, the rest is the method.  Full statements: the file named in the last column.

| id | model and method | file |
|---|---|---|
| C01, C02, C03 | bit operations as written; `bucket_for` characterised by `Z.log2`, then interval arithmetic on powers of two; every bin is an interval and the bins partition the covered values | Props_Classes |
| C04 | `new_with_bounds`: exact conditions and exact error; the loop in `buckets_to_cover` by invariant; `C04_precision_fits` over the reals | Props_Classes, Props_Unit |
| C05 | integer model of `log2().floor()`: holds below 2^48, refuted at 2^49-1; `C05_unit_exact` ties it to the real logarithm, `C05_discernible_iff` is the exact condition for every `low` | Props_Classes, Props_Unit |
| C06-C08 | induction over the list of records against a list specification (`contents`, `records`) | Props_Record |
| C09-C11 | case analysis on coverage; refusal leaves the identical histogram | Props_Record |
| C12 | loop by induction on fuel; equals recording the arithmetic series | Props_Record |
| C13 | invariant over every mutator | Props_Record |
| C14-C16 | the three paths of `add` refine bin-wise addition; exact failure condition; commutativity and associativity of the observable result | Props_Merge |
| C17, C18, C52 | `subtract` and `restat` refine bin-wise subtraction; exact success condition; what a failure leaves behind | Props_Merge, Props_Undo |
| C19, C20 | observational equality with the source, respectively with a new histogram | Props_Merge |
| C21 | `hist_eq` as a relation; asymmetry by witness | Props_Query |
| C22-C24 | an engine invariant proved once for an arbitrary picker, then instances | Props_Iter |
| C25, C26 | levels as a sequence over the reals/integers; induction along the bins | Props_Level |
| C27 | halving bounds on `1 - q` in Flocq; termination by a measure | Props_Ticks |
| C28, C29 | monotonicity of rounding; rank of the sorted samples | Props_Quantile, Props_Total |
| C30 | prefix sums | Props_Query |
| C31 | invariant `wf` of every reachable histogram (`reachable_wf`), then totality per function | Props_Query, Props_Total |
| C32, C33, C35, C38, C39, C54, C55 | byte-level model; codec lemmas; decoder loop by induction over the numbers of the payload, the fast path (slices of at least nine bytes) and the slow one refining the same specification | Props_Ser |
| C34 | induction over seven-bit groups; agreement with LEB128 | Props_Ser |
| C36, C37 | totality over all byte strings; every proper prefix is refused | Props_Ser |
| C40 | the same with an abstract compressor | Props_Ser |
| C41, C42, C45, C56 | inductive invariants of the transition system: every call is in exactly one of the places (recorder, channel, merged) | Props_Sync |
| C43, C44 | barrier and progress under explicit conditions; two races exhibited as executions | Props_Sync |
| C43, C44 | for every interleaving, a potential function over the recorders and the channel bounds how many recorders one `refresh` misses by the number of disturbances during it, and how many histograms a waiting reader lacks by the number of recorders that slipped away; each kind of disturbance shown to cost one | Props_Miss |
| C46-C50 | printer/parser round trip over byte lists, with an arbitrary serializer and an arbitrary interleaving of comments, headers and intervals; C50: exactly what a log with failed writes reads as, by cutting the history into runs of failures | Props_Log, Props_Fault |
| C51 | relative error analysis of the sums, in Flocq; the exact mean as a real | Props_Stats |
| C53 | `record_n_correct` along the items of `iter_recorded` | Props_Iter |
| C57 | each short form equals its long form, and the effect in terms of C06/C14 | Props_Forms |
| C58 | composition of C28/C29 with the multiplications and divisions by 100 | Props_Percent |
| C59 | number of bins as a function of the configuration; bounds | Props_Size |
| C60 | permutations of the samples; recording in shards and merging | Props_Order |
| C61, C62 | quantiles and mean against the raw list of samples, within the resolution of C02 | Props_Accuracy |
| C63 | read off the invariant of every reachable histogram | Props_Bounds |
| C64 | the format as a relation (`number`, `numbers`, `fits`, `v2_image` in ImageSpec), shown to coincide with what the reader accepts; errors by the first defect | Props_Image |
| C65 | uniqueness of canonical number sequences, injectivity of the encoding, C32 | Props_Image |
| C66 | the grammar as relations (`seconds`, `is_number`, `log_line`, `log_text` in LangSpec); every parser is sound and complete for its relation; induction over the input | Props_Lang |
| C67 | independent descriptions of the printed numbers, base64 and the lines (LangSpec), shown to hold of the output and to be unambiguous | Props_Lang |
| C68 | streams are scripts of `read`/`write` results; induction on the script, then the stream version of the deserializer is shown to agree with the list version read by read | Props_Io |
| C69 | infinite executions as functions of time; a measure bounds the steps of the reader, an owing recorder reaches its send in at most four of its own steps, and a reader stuck for good contradicts C44; necessity by explicit infinite executions | Props_Live |
| C70 | totality of each step, preserved by the steps of others | Props_Live |
| C71 | invariants on where one call's effect can be (local with an old phase, about to be sent, in the channel, merged), for every interleaving; induction on the rounds for the starvation | Props_Deliver |
| C72 | Cauchy-Schwarz and the triangle inequality for weighted root mean squares over the reals, the half-class bound of each sample, C51 for the rounding | Props_Spread |
| C73 | a transition system in which loads return any value from the thread's view on (`wstep`); its steps are those of `step` in a state with another phase, so invariants that do not mention the phase carry over; for hand-over, invariants relating views, phases and moves | Props_Weak |
| C74 | the invariants of C43/C44 extended by steps that load an outdated phase; counterexamples by computation, with the invariant of C44 for the blocked reader | Props_Weak |
| C75 | a second model with wrapping `+` and masked `<<` (`ReleaseModel`); induction over the bins and over the items yielded, relating it to the checked model where that returns | Props_Release |
| C76 | the measure of C69 over the steps of `wstep`, counted against the number of the latest phase instead of the phase itself; once the moves are visible, a recorder that records sends; the counterexample is a state sequence defined by recursion, with an invariant | Props_WeakLive |
| C77 | induction over the text for the lines, over the lines for the recording, over the items of the quantile iterator for the rows; C40 and C32 for the round trip, C62 and C72 for the statistics | Props_Cli |
| C78 | infinite executions as in C69; between two looks of a recorder at the phase the wrapping counter has moved, so the second look hands over (an invariant on the phase the recorder read last, no bound on the whole run); then C71 and monotonicity of the merged log.  An execution without end that meets the hypotheses is constructed (`EventFacts`); induction on rounds of 2^64 refreshes for the wrap-around | Props_Event |
| C79 | the constructor with `log2` as a parameter (`LibmModel`) against `new_with_bounds`; bounds on the real logarithm next to powers of two; a correctly rounded function and a coarser one are constructed and shown to meet the requirements | Props_Libm |
| C80 | the model for an arbitrary width (`WidthModel`) against the one for 64 bits, function by function: the arithmetic agrees while the indexes stay below the length of the array; for 32 bits and more, bounds on all configurations | Props_Width |
| C81 | the same for the serializer and the deserializer; the position of the decoder only grows, so it is bounded by where the 64-bit decoder ends | Props_Width |
| C82 | as C78, over the numbers of the values of the phase that the loads return instead of the phase itself: a call that sees a newer value than the call before hands over; visibility gives such a call; for `refresh_timeout` the measure of C76 counts the moves that a recorder's view has not reached, so it needs no bound on the number of refreshes | Props_WeakEvent |
| C83 | each step is one of the model of C73 with another number of recorders; the invariants of C73 do not mention that number; the number is the recorders in use less the forgotten guards, modulo 2^64, by induction over the run, so without forgotten guards it does not wrap around and the two models have the same executions; `refresh_timeout` returns by the measure of C76, which does not mention the number; delivery in the end is that of C85 with 64 bits | Props_ReleaseSync, Props_ReleaseLive, Props_ReleaseEvent |
| C84 | each step is one of the model of C42 with another phase and another number of recorders, before and after; the invariants of C42 mention neither, so they hold (`LooseFacts`); value number k of the phase is k mod 2^B, and numbers less than 2^B apart differ; below 2^B refreshes and 2^B - 1 recorders the steps agree with those of 64 bits; delivery in the end as for C82, with 2^B for 2^64; `refresh_timeout` returns by the measure of C76 | Props_WidthSync, Props_WidthEvent, Props_WidthLive |
| C85 | as C83 and C84: each step is one of C84 with another number of recorders, before and after, so `LooseFacts` applies; the number follows the steps modulo 2^B; with 64 bits the steps are those of C83; `refresh_timeout` returns by the measure of C84; delivery in the end as for C84, whose argument does not use the number of recorders | Props_WidthRelease, Props_WidthReleaseLive, Props_WidthReleaseEvent |

Five properties are marked partial because the code violates them as stated: the theorems with
suffix `_refuted` are the counterexamples, and the others say exactly when the property does hold
(C05, C43, C44, C50, C52).

## 5. Findings

Each is a theorem, mostly with suffix `_refuted` (an execution of the model), unless marked (read).

1. `new_with_bounds(2^49 - 1, ..)`: the f64 logarithm rounds up, the unit is 2^49 and `low` is
   recorded as 0 (C05).  For other `low` above 2^40 next to a power of two it depends on the C library (C79).
2. `highest_equivalent` of the class that ends at `u64::MAX` is `u64::MAX - 1` (C01).  Consequences:
   a histogram that holds `u64::MAX` cannot be added to one of the same configuration (C16); the
   round trip through the serializer changes `max()` (C32); in a `SyncHistogram` the merge fails and
   `refresh` panics (C56).
3. After `reset()` the maximum is the unit mask, so with `low > 1` a reset histogram is not `==` a
   new one (C20); the same happens when only the class of 0 is occupied after deserialization (C32).
4. Once a counter has saturated, `len()` exceeds the sum of the counts (C14), `quantile_below` is
   wrong (C29) and `iter_quantiles` ends below 1.0 (C27).
5. A failing `subtract` leaves the bins before the failing one subtracted (C18); with saturated
   counters `min()` can then exceed `max()` (C63).
6. `saturating_record` is not monotone, because values between `high()` and the end of the last bin
   are recorded although `high()` is what larger ones are clamped to (C11, C09).
7. `==` is not symmetric between histograms with different numbers of bins (C21).
8. `record_n(v, 0)` moves the extremes (C08).
9. `subtract` leaves a stale `min_nz` (C52).  `C52_min_exact_iff` (Props_Undo) says exactly when: samples equivalent to 0
   remain, the total was not `u64::MAX`, every subtracted sample lies above the class of 0 and below the class of the maximum,
   and the class of the old minimum became empty.  `C52_undo_iff` says exactly when `add` followed by `subtract` of the same
   histogram does not compare equal to the original.
10. `add_correct` is partially applied when it fails (C53).
11. `iter_linear` panics by overflow or by a shift of 64 near the top of the range (C25).  Without overflow
    checks it does not, but the values it reports can decrease (C75).
12. `value_at_quantile(1.0)` is 0 when `len()` is above 2^53 and rounds up (C28); an overflowing
    running total panics (C28; C28_outcome says exactly when).  Without overflow checks the running total
    wraps around and the median can be reported as 0 (C75).
13. The deserializer panics in a debug build on a number that decodes to `i64::MIN` (C36).
    A 40-byte header makes it allocate up to 4 GiB (read).  Compressed input truncated in the zlib
    checksum is not noticed (read).  `auto_resize` is not part of the format (C32).
14. `encode_counts` guards unchecked reads by `index_limit <= len` (should be `<`); safe for every
    reachable histogram (C35).
15. Sync: a recorder dropped during `refresh` makes it return early (C43; `C43_missed_bounded` bounds the damage of this and
    of the other ways to disturb it); a recorder that goes idle
    between the reading of the count and the phase change blocks it for ever (C44); forgetting the guard
    of an idle recorder makes the count underflow (C45), which in a build without overflow checks makes the
    next `refresh` wait for 2^64 - 1 histograms (C83).  Cloning and dropping recorders for ever keeps
    `refresh`, and `refresh_timeout` too, in its first loop (C69).  A recorder that goes idle after each
    call and wakes up after the next `refresh` never hands over its samples, since `reactivate` adopts the
    new phase without sending (C71).  With release/acquire memory the windows of C43 and C44 do not end when the
    reader moves the phase but when the recorder that goes idle or wakes up sees it (C74).  The phase counter wraps
    around: a recorder whose calls are exactly 2^64 refreshes apart never hands over anything (C78; of no practical
    consequence), and on a 32-bit target 2^32 refreshes (C84).
    `refresh_timeout` with a duration so long that `Instant::now() + dur` overflows panics, before anything
    has happened (read).
16. Log: times before the epoch are lost, durations close to 2^64 s and the divisor -0.0 give logs
    that cannot be read back (C46); the parser accepts tags that `Tag::new` refuses (C48); comments can
    look like headers (C49); a failed `write_histogram` leaves half a line that the next one is glued
    to (C50).  Exactly what is lost: the one write after a run of failures; in its place a phantom interval is read whose
    payload is not base64 (`C50_failures`).  Writing a comment after a failure avoids the loss (`C50_comment`).  After an I/O
    error that leaves part of a line, everything written later may be unreadable (`C50_io_failure_refuted`).
17. Targets with a narrow `usize`: a constructor, a resize or the serializer panics (capacity overflow in
    `Vec`) where the element count fits `usize` but the bytes exceed `isize::MAX`, instead of returning
    `UsizeTypeTooSmall` (C80, C81; needs 16 bits).  On a 32-bit target 40 bytes that claim a payload of 2^31
    bytes make the deserializer panic, and a run of 2^32 zeros, harmless on 64 bits, is an error (C81).
18. `examples/cli.rs`: the options `-c` and `-r` are declared without an action, which in clap 4 makes
    them take a value: `serialize -c` alone is refused (read).

## 6. Tests against wrong programs

`seeded/LOG.jsonl`: one line per edited definition.  An edit is made in a scratch copy; the lemmas
whose scripts no longer go through are set aside, and a theorem counts as failed when its proof depends
on one of those.  Edits after which nothing that claims the edited behaviour failed led to new or
stronger theorems (column `tightened`).
