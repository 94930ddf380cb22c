(** Assumptions.v -- generated by tools/manifest.py: what each claimed theorem rests on. *)
From Verif Require Import Props_again Props_calls Props_checker Props_checker2 Props_checker_nuke Props_compress Props_compress2 Props_copy Props_count Props_file Props_folder Props_generators Props_gob Props_gob_tar Props_kept Props_kept_tar Props_later Props_later_tar Props_lazy Props_loss Props_loss_tar Props_misc Props_names Props_parents Props_reenter Props_saves Props_saves2 Props_shallow Props_shallow_tar Props_shallow_tar2 Props_source Props_source2 Props_source3 Props_source4 Props_spoil Props_stop Props_stop2 Props_tar Props_tar_folder Props_used Props_windows Props_zero Props_zip Props_zip2 Props_zip_folder.
Print Assumptions C01_seek_delivers_in_order.
Print Assumptions C01_seek_reaches_the_end.
Print Assumptions C02_seek_checkpoints_resume.
Print Assumptions C03_wantsave_one_checkpoint.
Print Assumptions C04_section_isolation_partial.
Print Assumptions C04_section_overflow_refuted.
Print Assumptions C05_in_range_stays_inside_partial.
Print Assumptions C05_read_panics_refuted.
Print Assumptions C05_readbyte_outside_refuted.
Print Assumptions C06_no_data_before_resume.
Print Assumptions C07_negative_offset_rejected.
Print Assumptions C08_seek_progress.
Print Assumptions C08_wrapped_progress.
Print Assumptions C09_counting_transparent.
Print Assumptions C10_counting_callback.
Print Assumptions C10_counting_any_time.
Print Assumptions C10_counting_fires.
Print Assumptions C11_discard_advances_exactly.
Print Assumptions C12_saving_invisible.
Print Assumptions C12_reaches_the_end.
Print Assumptions C13_checkpoints_resume.
Print Assumptions C14_unusable_checkpoint.
Print Assumptions C15_readbyte_partial.
Print Assumptions C15_phantom_byte_refuted.
Print Assumptions C15_last_byte_with_eof_refuted.
Print Assumptions C16_never_a_clean_end.
Print Assumptions C16_truncated.
Print Assumptions C17_failing_consumer_reported_partial.
Print Assumptions C17_seek_swallows_refuted.
Print Assumptions C17_readbyte_swallows_refuted.
Print Assumptions C18_wantsave_safe_partial.
Print Assumptions C18_wantsave_before_resume_refuted.
Print Assumptions C19_copies_everything.
Print Assumptions C20_stop.
Print Assumptions C20_stop_before_do.
Print Assumptions C21_save_requests.
Print Assumptions C34_zip_exact.
Print Assumptions C34_zip_completes.
Print Assumptions C34_zip_in_order.
Print Assumptions C34_folder_exact.
Print Assumptions C34_folder_completes.
Print Assumptions C35_zip_resume_exact.
Print Assumptions C35_same_contents.
Print Assumptions C35_zip_resume_completes.
Print Assumptions C35_folder_resume_exact.
Print Assumptions C35_folder_resume_completes.
Print Assumptions C35_needs_lazy_saves.
Print Assumptions C36_zip_checkpoint_synced.
Print Assumptions C36_folder_checkpoint_synced.
Print Assumptions C37_zip_power_loss_refuted.
Print Assumptions C37_folder_power_loss_refuted.
Print Assumptions C37_zip_power_loss_partial.
Print Assumptions C37_zip_power_loss_any_time_partial.
Print Assumptions C37_zip_power_loss_completes_partial.
Print Assumptions C37_folder_power_loss_partial.
Print Assumptions C37_folder_power_loss_completes_partial.
Print Assumptions C38_encrypted_never_written.
Print Assumptions C38_encrypted_refused.
Print Assumptions C39_normalized_names_safe.
Print Assumptions C39_unsafe_rejected.
Print Assumptions C39_accepted_by_folder_sink.
Print Assumptions C40_result_lists_archive.
Print Assumptions C41_support.
Print Assumptions C41_no_checkpoint_in_lzma.
Print Assumptions C42_zip_progress.
Print Assumptions C43_zip_retry_same_object.
Print Assumptions C43_zip_one_retry.
Print Assumptions C65_zip_spoilt_completes.
Print Assumptions C22_escape_rejected.
Print Assumptions C22_only_escapes_rejected.
Print Assumptions C22_paths_inside.
Print Assumptions C23_confined_without_symlinks.
Print Assumptions C24_symlink_escape_refuted.
Print Assumptions C24_confined_partial.
Print Assumptions C25_bad_target_rejected.
Print Assumptions C25_symlink_created.
Print Assumptions C26_resume_keeps_prefix.
Print Assumptions C26_getwriter_succeeds.
Print Assumptions C27_retired_writer_is_dead.
Print Assumptions C28_folder_in_the_way_refuted.
Print Assumptions C28_transient_lstat_refuted.
Print Assumptions C28_getwriter_makes_file_partial.
Print Assumptions C28_getwriter_success_partial.
Print Assumptions C28_mkdir_makes_folder.
Print Assumptions C29_getwriter_mode.
Print Assumptions C29_preallocate_mode.
Print Assumptions C30_ignored.
Print Assumptions C30_ignored_writer.
Print Assumptions C30_others_not_ignored.
Print Assumptions C31_preallocate_keeps_data.
Print Assumptions C31_preallocate_then_write.
Print Assumptions C32_nuke_empty_directory_refuted.
Print Assumptions C32_nuke_partial.
Print Assumptions C33_leak_refuted.
Print Assumptions C33_open_files_partial.
Print Assumptions C33_none_open_after_close_partial.
Print Assumptions C44_tar_exact.
Print Assumptions C44_tar_completes.
Print Assumptions C44_tar_in_order.
Print Assumptions C44_tar_folder_exact.
Print Assumptions C45_tar_resume_exact.
Print Assumptions C45_tar_resume_completes.
Print Assumptions C45_tar_resume_in_order.
Print Assumptions C45_tar_folder_resume_exact.
Print Assumptions C45_tar_folder_resume_completes.
Print Assumptions C46_tar_result_refuted.
Print Assumptions C46_tar_result_partial.
Print Assumptions C47_tar_power_loss_refuted.
Print Assumptions C47_tar_never_syncs.
Print Assumptions C47_tar_power_loss_partial.
Print Assumptions C47_tar_power_loss_any_time_partial.
Print Assumptions C47_tar_power_loss_completes_partial.
Print Assumptions C47_tar_folder_power_loss_partial.
Print Assumptions C47_tar_folder_power_loss_completes_partial.
Print Assumptions C48_tar_retry_same_object_refuted.
Print Assumptions C48_tar_retry_same_object_partial.
Print Assumptions C49_tar_checkpoint.
Print Assumptions C55_interleaved_sections_refuted.
Print Assumptions C55_sections_in_turn_partial.
Print Assumptions C57_tar_damage_after_end_refuted.
Print Assumptions C57_tar_archive_intact_partial.
Print Assumptions C58_tar_progress.
Print Assumptions C50_size.
Print Assumptions C50_stats.
Print Assumptions C51_nop_sink.
Print Assumptions C51_zip_to_nop.
Print Assumptions C51_tar_to_nop.
Print Assumptions C52_checker_write.
Print Assumptions C52_checker_seek.
Print Assumptions C53_validate_misses_holes_refuted.
Print Assumptions C53_validate_misses_middle_refuted.
Print Assumptions C53_validate_empty_symlink_refuted.
Print Assumptions C53_written_is_expected.
Print Assumptions C53_validate_sound_partial.
Print Assumptions C54_exact_length.
Print Assumptions C54_prefix.
Print Assumptions C59_correct_extraction_passes.
Print Assumptions C59_after_nuke.
Print Assumptions C60_counter.
Print Assumptions C56_tar_object_spent.
Print Assumptions C56_tar_object_restarts.
Print Assumptions C61_zip_stop.
Print Assumptions C61_zip_errstop.
Print Assumptions C61_tar_stop.
Print Assumptions C61_tar_errstop.
Print Assumptions C62_zip_save_error_refuted.
Print Assumptions C62_tar_save_error_refuted.
Print Assumptions C62_zip_save_error_partial.
Print Assumptions C62_tar_save_error_partial.
Print Assumptions C63_zip_sink_use.
Print Assumptions C63_tar_sink_use.
Print Assumptions C64_tar_support.
Print Assumptions C64_sources_support.
Print Assumptions C64_tar_prealloc.
Print Assumptions C64_zip_prealloc.
Print Assumptions C65_spoilt_source.
Print Assumptions C65_zip_spoilt_exact.
Print Assumptions C65_tar_spoilt_exact.
Print Assumptions C65_tar_spoilt_completes.
Print Assumptions C66_zip_stop_resume.
Print Assumptions C66_zip_safe.
Print Assumptions C66_tar_stop_resume.
Print Assumptions C66_tar_safe.
Print Assumptions C66_zip_folder.
Print Assumptions C66_tar_folder.
Print Assumptions C67_resume_within_save.
Print Assumptions C68_tester_correct_source.
Print Assumptions C68_source_test.
Print Assumptions C68_tester_sound_partial.
Print Assumptions C68_truncation_unnoticed_refuted.
Print Assumptions C68_needs_lazy_saves.
Print Assumptions C69_saves_requested.
Print Assumptions C70_zip_saves_on_demand.
Print Assumptions C70_tar_saves_on_demand.
Print Assumptions C71_zip_reported_at_most.
Print Assumptions C71_tar_reported_at_most.
Print Assumptions C71_zip_all_reported_partial.
Print Assumptions C71_tar_all_reported_partial.
Print Assumptions C71_all_reported_refuted.
Print Assumptions C72_zip_checkpoints_advance.
Print Assumptions C72_zip_checkpoint_progress.
Print Assumptions C72_zip_resume_gets_past.
Print Assumptions C72_tar_checkpoints_advance.
Print Assumptions C73_parent_folders_partial.
Print Assumptions C73_new_folder_modes_partial.
Print Assumptions C73_mode_0755_refuted.
Print Assumptions C74_sizes_partial.
Print Assumptions C74_preallocate_truncates_refuted.
Print Assumptions C74_getwriter_truncates_refuted.
Print Assumptions C75_open_files_partial.
Print Assumptions C75_open_delivers_partial.
Print Assumptions C75_open_paused.
Print Assumptions C75_close.
Print Assumptions C75_stat_error_swallowed_refuted.
Print Assumptions C75_failed_open_leaks_refuted.
Print Assumptions C76_symlink_becomes_text_file.
Print Assumptions C76_ignored.
Print Assumptions C77_zip_validates_partial.
Print Assumptions C77_zip_passes_partial.
Print Assumptions C77_tar_validates.
Print Assumptions C77_tar_passes.
Print Assumptions C77_empty_refuted.
Print Assumptions C78_zip_kept_object.
Print Assumptions C78_zip_kept_object_completes.
Print Assumptions C78_tar_kept_spent_partial.
Print Assumptions C78_tar_kept_object_partial.
Print Assumptions C78_tar_kept_object_refuted.
Print Assumptions C79_reused_exact_partial.
Print Assumptions C79_reused_completes_partial.
Print Assumptions C79_reused_progress_refuted.
Print Assumptions C79_stale_checkpoint_refuted.
Print Assumptions C80_test_sink.
Print Assumptions C80_never_a_symlink.
Print Assumptions C80_zip_passes.
Print Assumptions C80_zip_methods.
Print Assumptions C80_tar_passes.
Print Assumptions C81_zip_shallow.
Print Assumptions C81_zip_shallow_completes.
Print Assumptions C81_tar_shallow_refuted.
Print Assumptions C81_tar_shallow_partial.
Print Assumptions C81_tar_shallow_completes_partial.
Print Assumptions C82_source_survives.
Print Assumptions C82_package_needed.
Print Assumptions C82_zip_survives.
Print Assumptions C82_zip_completes.
Print Assumptions C82_tar_survives.
Print Assumptions C82_tar_completes.
Print Assumptions C83_offset_zero_refuted.
Print Assumptions C83_only_before_the_first_byte_partial.
Print Assumptions C83_offset_zero_is_nil_partial.
Print Assumptions C84_features_string.
Print Assumptions C84_kinds_and_levels.
Print Assumptions C84_own_extractors.
Print Assumptions C84_colons_confuse.
Print Assumptions C85_compress_errors.
Print Assumptions C85_round_trip.
Print Assumptions C85_round_trip_complete.
Print Assumptions C85_source_test.
Print Assumptions C85_compressed_tar_passes.
