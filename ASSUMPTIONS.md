# What Print Assumptions reports for each theorem

Generated by tools/gen_assumptions.py.

## Closed under the global context

* Props_Bounds: `C63_max_bound`, `C63_max_held`, `C63_min_nz_bound`, `C63_min_bound`, `C63_len_bound`, `C63_min_le_max`, `C63_min_above_max_refuted`, `C52_subtract_stats_partial`, `C10_resize_high`, `C16_add_empty`, `C17_subtract_empty`, `C21_eq_iff`
* Props_Classes: `C01_class_is_interval`, `C01_highest_equivalent_top_refuted`, `C02_resolution`, `C03_binning`, `C03_bins_onto`, `C04_construction`, `C04_new_is_empty`, `C04_new`, `C05_low_discernible_partial`, `C05_unit_bounds`, `C05_low_discernible_refuted`
* Props_Cli: `C77_lines`, `C77_serialize`, `C77_rejects`
* Props_Forms: `C57_record`, `C57_saturating_record`, `C57_record_correct`, `C57_plus_value`, `C57_plus`, `C57_minus`, `C57_sum`, `C57_sum_empty`, `C57_sum_same_config`, `C57_auto`
* Props_Image: `C64_accepted`, `C64_meaning`, `C64_header_errors`, `C64_payload_errors`, `C64_truncated`, `C64_compressed`, `C65_canonical`, `C65_unique`, `C65_same_bytes`, `C65_rewritten`
* Props_Io: `C68_delivers`, `C68_outcome`, `C68_plain`, `C68_writer`, `C68_willing`, `C68_deflate_writer`, `C68_retry`, `C68_round_trip`
* Props_Lang: `C66_language`, `C66_error`, `C66_unambiguous`, `C66_concatenation`
* Props_Log: `C47_total`, `C47_fused`, `C48_tag_new`, `C48_parsed_tag_refuted`, `C46_v2_bytes`, `C49_comment`, `C49_header_comment_refuted`
* Props_Merge: `C14_add_counts`, `C14_add_same_precision`, `C14_add_len`, `C14_add_stats`, `C14_add_error`, `C14_len_after_saturation_refuted`, `C15_commutative`, `C15_associative`, `C16_add_fails_iff`, `C16_same_config`, `C16_identical_add_fails_refuted`, `C17_subtract_counts`, `C17_subtract_success_iff`, `C17_undo`, `C17_subtract_stats`, `C18_subtract_error`, `C18_subtract_total`, `C18_partial_effect_refuted`, `C52_stale_min_nz_refuted`, `C52_undo_not_equal_refuted`, `C19_new_from`, `C19_set_to`, `C19_set_to_equal`, `C20_reset`, `C20_reset_like_new`, `C20_reset_is_new`, `C20_reset_not_equal_new_refuted`, `C20_clear`
* Props_Order: `C60_order`, `C60_accepted`, `C60_shards_held`, `C60_shards_stats`
* Props_Query: `C21_eq_reflexive`, `C21_eq_transitive`, `C21_eq_agree`, `C21_eq_symmetric`, `C21_eq_not_symmetric_refuted`, `C30_count_between`, `C30_clamped`, `C30_additive`, `C30_history`, `C31_queries_total`, `C31_updates_total`, `C31_merge_total`, `C31_construction_total`
* Props_Record: `C06_records_add_up`, `C06_records_new_bins`, `C06_count_at`, `C07_len`, `C08_max`, `C08_min_nz`, `C08_min_nz_none`, `C08_min`, `C08_zero_count_moves_max_refuted`, `C09_reject_unchanged`, `C09_covered_range`, `C09_above_high_accepted_refuted`, `C10_auto_resize`, `C11_saturating`, `C11_not_monotone_refuted`, `C12_correction`, `C12_missing_values`, `C13_counts_in_type`, `C13_monotone_record`, `C13_monotone_add`
* Props_Ser: `C32_round_trip`, `C32_statistics`, `C32_equal`, `C32_equal_empty`, `C32_equal_top_refuted`, `C32_equal_zero_refuted`, `C32_auto_resize_refuted`, `C33_serializable`, `C34_varint`, `C34_varint_length`, `C34_readers_agree`, `C34_zig_zag`, `C35_bounds`, `C36_total`, `C36_release_total`, `C36_debug_panic_refuted`, `C37_prefix`, `C37_cookie`, `C37_concatenated`, `C38_narrowing`, `C39_serializer_reuse`, `C39_deserializer_reuse`, `C40_compressed`, `C54_format`, `C55_foreign_images`
* Props_Size: `C59_layout`, `C59_bounded`, `C59_full_range`
* Props_Undo: `C52_min_exact_iff`, `C52_undo_iff`
* Props_Width: `C80_create`, `C80_create_default`, `C80_record`, `C80_add`, `C80_fixed`, `C80_correct`, `C80_panic_refuted`, `C81_serialize`, `C81_serialize_wide`, `C81_round_trip`, `C81_deserialize`, `C81_run_refuted`, `C81_claimed_length`

173 theorems

## `ClassicalDedekindReals.sig_forall_dec`, `ClassicalDedekindReals.sig_not_dec`, `Classical_Prop.classic`, `FunctionalExtensionality.functional_extensionality_dep`

* Props_Accuracy: `C61_quantile_accuracy`, `C61_rank`, `C62_mean_accuracy`
* Props_Cli: `C77_report`, `C77_no_ticks`
* Props_Deliver: `C71_refresh_collects`, `C71_handed_over`, `C71_drop_hands_over`, `C71_delivered`, `C71_dropped_delivered`, `C71_wake_refuted`, `C71_naps_refuted`
* Props_Event: `C78_handed_over`, `C78_eventually`, `C78_dropped_eventually`, `C78_with_timeout`, `C78_wrap_refuted`
* Props_Fault: `C50_failures`, `C50_recovered`, `C50_comment`, `C50_io_failure_refuted`
* Props_Iter: `C22_recorded`, `C23_all`, `C24_accounts`, `C24_total`, `C24_fused`, `C24_no_panic`, `C53_add_correct`, `C53_set_to_corrected`, `C53_clone_correct`, `C53_clone_plain`, `C53_partial_effect_refuted`
* Props_Lang: `C67_header`, `C67_call`, `C67_text`, `C67_determined`, `C67_maximum`
* Props_Level: `C25_linear`, `C25_overflow_refuted`, `C25_shift_refuted`, `C26_log`, `C26_integer_base`
* Props_Libm: `C79_rounded`, `C79_any_log2`, `C79_default_low`, `C79_every_low`, `C79_library_matters_refuted`
* Props_Live: `C69_refresh_returns`, `C69_timeout_returns`, `C69_unused_recorder_refuted`, `C69_clones_refuted`, `C70_recording_never_waits`, `C70_mutex_released`
* Props_Log: `C46_milliseconds`, `C46_close`, `C46_loggable`, `C46_round_trip`, `C46_samples`, `C46_maximum`, `C46_before_epoch_refuted`, `C46_huge_duration_refuted`, `C46_negative_divisor_refuted`, `C50_before_partial`, `C50_after_failure_refuted`
* Props_Miss: `C43_missed_bounded`, `C43_owed_bounded`, `C43_undisturbed`, `C44_waits_for_enough`
* Props_Percent: `C58_value_at_percentile`, `C58_monotone`, `C58_ends`, `C58_percentile_below`, `C58_step_percentile`
* Props_Quantile: `C28_rank`, `C28_rank_exists`, `C28_monotone`, `C28_zero`, `C28_one`, `C28_rank_beyond_len_refuted`, `C28_overflow_panics_refuted`, `C29_fraction`, `C29_total`, `C29_monotone`, `C29_top`, `C29_saturated_refuted`
* Props_Release: `C75_quantile`, `C75_quantile_same`, `C75_median_refuted`, `C75_linear_same`, `C75_linear_total`, `C75_linear_wraps_refuted`
* Props_ReleaseEvent: `C83_handed_over`, `C83_refresh_collects`, `C83_drop_hands_over`, `C83_eventually`, `C83_dropped_eventually`
* Props_ReleaseLive: `C83_timeout_returns`, `C83_same_ever`
* Props_ReleaseSync: `C83_same`, `C83_as_checked`, `C83_every_call_in_one_place`, `C83_contents`, `C83_refresh_never_panics`, `C83_count`, `C83_timeout_goes_on`, `C83_deadlock_refuted`
* Props_Spread: `C72_stdev_accuracy`
* Props_Stats: `C51_mean`, `C51_mean_between`, `C51_stdev`, `C51_empty`
* Props_Sync: `C41_every_call_in_one_place`, `C41_contents`, `C56_refresh_never_panics`, `C56_refresh_panics_refuted`, `C45_count`, `C45_mutex`, `C45_leaked_guard_refuted`, `C42_quiet`, `C42_all_dropped`, `C43_barrier`, `C43_synced_kept`, `C43_missed_sample_refuted`, `C44_waits_for_someone`, `C44_recording_pays`, `C44_paid_stays`, `C44_returns_when_paid`, `C44_blocked_for_ever_refuted`
* Props_Ticks: `C27_quantiles`, `C27_ends`, `C27_empty`, `C27_saturated_refuted`
* Props_Total: `C28_outcome`, `C31_statistics_total`, `C31_iterators_start`
* Props_Unit: `C05_unit_exact`, `C05_discernible_iff`, `C04_precision_fits`
* Props_Weak: `C73_sequential_runs`, `C73_every_call_in_one_place`, `C73_contents`, `C73_refresh_never_panics`, `C73_count`, `C73_mutex`, `C73_quiet`, `C73_all_dropped`, `C73_recording_never_waits`, `C73_staleness`, `C73_refresh_collects`, `C73_drop_hands_over`, `C73_handed_over`, `C73_idle_hands_over`, `C74_barrier`, `C74_synced_kept`, `C74_waits_for_someone`, `C74_recording_pays`, `C74_returns_when_paid`, `C74_paid_stays`, `C74_missed_late_wake_refuted`, `C74_blocked_refuted`
* Props_WeakEvent: `C82_handed_over`, `C82_eventually`, `C82_dropped_eventually`, `C82_with_timeout`, `C82_invisible_refuted`
* Props_WeakLive: `C76_refresh_returns`, `C76_timeout_returns`, `C76_invisible_refuted`
* Props_Width: `C80_query`, `C80_iterate`, `C80_copy_correct`, `C80_wide`
* Props_WidthEvent: `C84_refresh_collects`, `C84_drop_hands_over`, `C84_eventually`, `C84_dropped_eventually`
* Props_WidthLive: `C84_timeout_returns`
* Props_WidthRelease: `C85_same`, `C85_as_checked`, `C85_same_64`, `C85_every_call_in_one_place`, `C85_contents`, `C85_refresh_never_panics`, `C85_count`, `C85_timeout_goes_on`, `C85_deadlock_refuted`
* Props_WidthReleaseEvent: `C85_handed_over`, `C85_refresh_collects`, `C85_drop_hands_over`, `C85_eventually`, `C85_dropped_eventually`
* Props_WidthReleaseLive: `C85_timeout_returns`, `C85_same_ever`
* Props_WidthSync: `C84_same`, `C84_every_call_in_one_place`, `C84_contents`, `C84_refresh_never_panics`, `C84_count`, `C84_handed_over`, `C84_wrap_refuted`

200 theorems
