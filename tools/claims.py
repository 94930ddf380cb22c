M("C01","proved","C01_seek_delivers_in_order C01_seek_reaches_the_end","Any data, section, reader behaviour (short reads, failing reads, EOF with data) and operation sequence.")
M("C02","proved","C02_seek_checkpoints_resume")
M("C03","proved","C03_wantsave_one_checkpoint","Exact checkpoints of every operation are given by the specification expect_cks (Drive.v).")
M("C04","partial","C04_section_isolation_partial C04_section_overflow_refuted","Holds at every nesting depth for windows whose end does not overflow int64; with overflow Section accepts a window that does not fit (refuted).")
M("C05","partial","C05_in_range_stays_inside_partial C05_read_panics_refuted C05_readbyte_outside_refuted","False of the code: an offset beyond Size() is accepted by Resume, then Read panics and ReadByte in a section returns bytes outside the window. Proved for in-range offsets.")
M("C06","proved","C06_no_data_before_resume","Seek sources and any stack of decompressing sources.")
M("C07","proved","C07_negative_offset_rejected")
M("C08","proved","C08_seek_progress C08_wrapped_progress","Progress as an exact rational; float64 rounding is not modelled.")
M("C09","proved","C09_counting_transparent","For any wrapped SeekSource.")
M("C10","proved","C10_counting_callback C10_counting_any_time C10_counting_fires")
M("C11","proved","C11_discard_advances_exactly","On any stack, at any point of its life.")
M("C12","proved","C12_saving_invisible C12_reaches_the_end","Any codec, stack, schedule; conditions on the codec are those of stk_den (Drive.v).")
M("C13","proved","C13_checkpoints_resume","Any stacking depth, same or other source object, any history.")
M("C14","proved","C14_unusable_checkpoint C13_checkpoints_resume","Fallback on a newly built source; the clause on successful Resume offsets is also in C13_checkpoints_resume.")
M("C15","partial","C15_readbyte_partial C15_phantom_byte_refuted C15_last_byte_with_eof_refuted","False in two cases (two saves becoming ready within one ReadByte; io.EOF returned with the last data); proved when the decompressors have no empty blocks and return io.EOF separately.")
M("C16","proved","C16_never_a_clean_end C16_truncated")
M("C17","partial","C17_failing_consumer_reported_partial C17_seek_swallows_refuted C17_readbyte_swallows_refuted","False for seek sources and for ReadByte of decompressing sources; proved for Read of every decompressing source.")
M("C18","partial","C18_wantsave_safe_partial C18_wantsave_before_resume_refuted","False before the first Resume of a gzip source; proved for every stack after a successful Resume, and at any time for seek sources.")
M("C19","proved","C19_copies_everything","Any environment of the copier (source, destination, consumer).")
M("C20","proved","C20_stop C20_stop_before_do")
M("C21","proved","C21_save_requests")
M("C34","proved","C34_zip_exact C34_zip_completes C34_zip_in_order C34_folder_exact C34_folder_completes","Any lawful sink (failing at any time), archive reader, save consumer. The deflate decompressor is any block transducer that signals block boundaries separately from data.")
M("C35","proved","C35_zip_resume_exact C35_same_contents C35_zip_resume_completes C35_folder_resume_exact C35_folder_resume_completes C35_needs_lazy_saves","Any history of stopped, failed and killed runs and of power failures that spare what LossSpec.v says, resumed from any checkpoint of the current lineage (resuming an older checkpoint invalidates the later ones). Holds for archives the sink can store (kl_valid).")
M("C36","proved","C36_zip_checkpoint_synced C36_folder_checkpoint_synced")
M("C37","partial","C37_zip_power_loss_refuted C37_folder_power_loss_refuted C37_zip_power_loss_partial C37_zip_power_loss_any_time_partial C37_zip_power_loss_completes_partial C37_folder_power_loss_partial C37_folder_power_loss_completes_partial","False of the code: files completed earlier are not synced before they are closed. Proved, for a power loss at any moment of any history, if it spares what was complete when the checkpoint was saved and the first WriteOffset bytes of the file in progress (C36: those are synced at that moment); the folder versions also assume that names, folders and symlinks survive. Missing: that finished files survive, which the code does nothing for.")
M("C38","proved","C38_encrypted_never_written C38_encrypted_refused")
M("C39","proved","C39_normalized_names_safe C39_unsafe_rejected C39_accepted_by_folder_sink","FolderSink with a Directory other than the file system root (which rejects every entry but itself).")
M("C40","proved","C40_result_lists_archive","Any sink and history.")
M("C41","proved","C41_support C41_no_checkpoint_in_lzma")
M("C42","proved","C42_zip_progress","Progress as exact rationals; float64 rounding is not modelled; total size positive (otherwise NaN).")
M("C43","proved","C43_zip_retry_same_object C43_zip_one_retry C65_zip_spoilt_completes C35_folder_resume_exact")
M("C22","proved","C22_escape_rejected C22_only_escapes_rejected C22_paths_inside","Every operation, any Directory and working directory; a file entry that denotes Directory itself makes the sink create Directory's parent, which is the only path above it.")
M("C23","proved","C23_confined_without_symlinks","Every history of operations on a file system with no symbolic links on or below Directory.")
M("C24","partial","C24_symlink_escape_refuted C24_confined_partial","False of the code: a chain of symlinks, each passing the lexical check, leads outside. Proved for symlink entries whose targets are plain.")
M("C25","proved","C25_bad_target_rejected C25_symlink_created")
M("C26","proved","C26_resume_keeps_prefix C26_getwriter_succeeds")
M("C27","proved","C27_retired_writer_is_dead","Getting a writer for a name the sink ignores (Icon\\r) does not retire the previous one.")
M("C28","partial","C28_folder_in_the_way_refuted C28_transient_lstat_refuted C28_getwriter_makes_file_partial C28_getwriter_success_partial C28_mkdir_makes_folder C25_symlink_created","False for a file entry over a folder (GetWriter reports an error and leaves the folder), and a transient Lstat failure makes the sink follow a symlink in the way. Proved for everything else.")
M("C29","proved","C29_getwriter_mode C29_preallocate_mode")
M("C30","proved","C30_ignored C30_ignored_writer C30_others_not_ignored")
M("C31","proved","C31_preallocate_keeps_data C31_preallocate_then_write")
M("C32","partial","C32_nuke_empty_directory_refuted C32_nuke_partial C27_retired_writer_is_dead","False when Directory is empty (nothing is removed although the working directory is written to). Proved otherwise.")
M("C33","partial","C33_leak_refuted C33_open_files_partial C33_none_open_after_close_partial","False when the final Seek or Truncate of GetWriter fails (the handle leaks). Proved for histories without that failure.")
M("C44","proved","C44_tar_exact C44_tar_completes C44_tar_in_order C44_tar_folder_exact","The abstract sink meets the sink laws proved of FolderSink; C44_tar_folder_exact composes the extractor with FolderSink itself.")
M("C45","proved","C45_tar_resume_exact C45_tar_resume_completes C45_tar_resume_in_order C45_tar_folder_resume_exact C45_tar_folder_resume_completes","Process crashes, failures and stops at any point, any number of times, and power failures that spare what LossSpec.v says. Sources whose checkpoints are taken lazily (see DESIGN.md).")
M("C46","partial","C46_tar_result_refuted C46_tar_result_partial","False: directories and symlinks are missing from the result. Proved: it lists exactly the regular files, in order, with the bytes written, whatever the interruptions.")
M("C47","partial","C47_tar_power_loss_refuted C47_tar_never_syncs C47_tar_power_loss_partial C47_tar_power_loss_any_time_partial C47_tar_power_loss_completes_partial C47_tar_folder_power_loss_partial C47_tar_folder_power_loss_completes_partial","False: the tar extractor never syncs its writer before saving. Proved, for a power loss at any moment of any history, when it spares the entries finished when the checkpoint was saved and the first WriteOffset bytes of the current file; the folder versions also assume that names, folders and symlinks survive. Missing: that this much survives, which the code does nothing for.")
M("C48","partial","C48_tar_retry_same_object_refuted C48_tar_retry_same_object_partial","False: Resume advances WriteOffset in the caller's object while its tar position stays, so a retry repeats bytes. Proved when the object is still in step or holds no position.")
M("C49","proved","C49_tar_checkpoint")
M("C55","partial","C55_interleaved_sections_refuted C55_sections_in_turn_partial","False: sections share one read seeker. Proved when every session on a section starts with Resume.")
M("C57","partial","C57_tar_damage_after_end_refuted C57_tar_archive_intact_partial","False: the stream is not read past the end-of-archive marker. Proved: everything up to the marker was intact.")
M("C58","proved","C58_tar_progress")
M("C50","proved","C50_size C50_stats","Sums are 64 bit: exact as long as they fit. The wording of the summary is not modelled.")
M("C51","proved","C51_nop_sink C51_zip_to_nop C51_tar_to_nop C30_ignored_writer")
M("C52","proved","C52_checker_write C52_checker_seek")
M("C53","partial","C53_validate_misses_holes_refuted C53_validate_misses_middle_refuted C53_validate_empty_symlink_refuted C53_written_is_expected C53_validate_sound_partial","False: only the first and last offset written are recorded, so holes go unnoticed. Proved when no writer starts beyond what was written.")
M("C54","proved","C54_exact_length C54_prefix","For every generator of random numbers. Termination depends on the generator and is not claimed.")
M("C59","proved","C59_correct_extraction_passes C59_after_nuke")
M("C60","proved","C60_counter","As long as the total number of bytes fits in 63 bits.")
M("C56","proved","C56_tar_object_spent C56_tar_object_restarts","The sink, the consumer and the header parser must not return savior.ErrStop as errors of their own.")
M("C61","proved","C61_zip_stop C61_zip_errstop C61_tar_stop C61_tar_errstop")
M("C62","partial","C62_zip_save_error_refuted C62_tar_save_error_refuted C62_zip_save_error_partial C62_tar_save_error_partial","False for data that is not compressed: seeksource drops the error of Save. Proved for archives without stored entries and for compressed tar streams.")
M("C63","proved","C63_zip_sink_use C63_tar_sink_use")
M("C64","proved","C64_tar_support C64_sources_support C64_tar_prealloc C64_zip_prealloc")
M("C65","proved","C65_spoilt_source C65_zip_spoilt_exact C65_zip_spoilt_completes C65_tar_spoilt_exact C65_tar_spoilt_completes","Completion for zip: if neither the readers nor the decompressor return io.EOF together with data.")
M("C66","proved","C66_zip_stop_resume C66_zip_safe C66_tar_stop_resume C66_tar_safe C66_zip_folder C66_tar_folder","zip_again/tar_again model the loop of RunExtractorText.")
M("C67","proved","C67_resume_within_save","For decompressors that signal block boundaries without data (see C35_needs_lazy_saves).")
M("C68","partial","C68_tester_correct_source C68_source_test C68_tester_sound_partial C68_truncation_unnoticed_refuted C68_needs_lazy_saves","Correct sources are never blamed (proved); but the tester does not notice that a source ends early: what a passed test means is that the source delivers a prefix of the reference (proved).")
M("C69","proved","C69_saves_requested")
M("C70","proved","C70_zip_saves_on_demand C70_tar_saves_on_demand")
M("C71","partial","C71_zip_reported_at_most C71_tar_reported_at_most C71_zip_all_reported_partial C71_tar_all_reported_partial C71_all_reported_refuted","False as documented: zip entries copied by io.Copy are not reported at all, and neither is the last chunk if it comes together with io.EOF. The bounds hold always, equality where neither happens.")
M("C72","proved","C72_zip_checkpoints_advance C72_zip_checkpoint_progress C72_zip_resume_gets_past C72_tar_checkpoints_advance","\"Past\" is for entries the sink does not ignore (for an ignored entry nothing is written, its WriteOffset stays 0). Within one run two consecutive checkpoints can have the same position (empty blocks).")
M("C73","partial","C73_parent_folders_partial C73_new_folder_modes_partial C73_mode_0755_refuted","The parents exist and old ones keep their mode (proved, for locations without symlinks or files above them); but only Mkdir asks for 0755, the other calls ask for 0777 (refuted with umask 0). With umask 022 all are 0755.")
M("C74","partial","C74_sizes_partial C74_preallocate_truncates_refuted C74_getwriter_truncates_refuted","The README has it the other way round; the exact sizes are proved.")
M("C75","partial","C75_open_files_partial C75_open_delivers_partial C75_open_paused C75_close C75_stat_error_swallowed_refuted C75_failed_open_leaks_refuted","False in two ways: FromFile swallows a Stat error and takes the file to be empty; Open leaves the file open if Resume's Seek fails. Proved otherwise.")
M("C76","proved","C76_symlink_becomes_text_file C76_ignored","The Windows branch of the code (no Chmod, GetWriter/Write/Close instead of Symlink) on the file-system model with slash paths; Windows paths (drives, backslashes, reserved names) are not modelled. A folder in the way makes it fail (example), against the README's other promise, see C28.")
M("C77","partial","C77_zip_validates_partial C77_zip_passes_partial C77_tar_validates C77_tar_passes C77_empty_refuted","False for empty zip entries that are neither stored nor deflated: io.Copy never calls Write, so Validate finds the start of the file missing. Proved for tar archives without restriction and for zip archives whose empty files, if any, are stored or deflated.")
M("C78","partial","C78_zip_kept_object C78_zip_kept_object_completes C78_tar_kept_spent_partial C78_tar_kept_object_partial C78_tar_kept_object_refuted","Holds for zip, also any number of times (ZlKept in zlife: C43_zip_retry_same_object). False for tar after a failure: WriteOffset in the object has moved on, its tar position has not. Proved for tar if the run was stopped or done (the object then starts over), or if nothing was written since the save.")
M("C79","partial","C79_reused_exact_partial C79_reused_completes_partial C79_reused_progress_refuted C79_stale_checkpoint_refuted","For tar (a zip extractor makes new sources itself). Proved: exactness on success, no panics, completion, for any history of uses of the source that did not include a failure of the source's own Resume. False: progress (a SeekSource keeps the save request made while the first run was stopping, so every further run saves and stops at the same place), and the last clause (while Resume repositions a used source, the closure of the earlier run is still its save consumer and hands out a checkpoint of that run, which skips the rest of a file).")
M("C80","proved","C80_test_sink C80_never_a_symlink C80_zip_passes C80_zip_methods C80_tar_passes","The writers of arkive/zip and arkive/tar are assumed to write archives that read back as what they were given (GeneratorsSpec.v); items of unknown kind are excluded (they are skipped by the generators and then missing for Validate).")
M("C81","partial","C81_zip_shallow C81_zip_shallow_completes C81_tar_shallow_refuted C81_tar_shallow_partial C81_tar_shallow_completes_partial","Holds for zip; completion assumes sources that announce io.EOF apart from data. Histories with shallow copies are part of zlife with mem = true (ZlFreshShallow, ZlResumeShallow), so C43, C65, C66 and C78 for zip cover them as well. False for tar: a run that is stopped at a checkpoint still writes what was just read, so the copy has a WriteOffset ahead of its tar position; resuming from it ends without error with bytes twice in the file and the entry twice in the result. Proved for tar: a copy of the last checkpoint of a run, if since then no byte of its entry was written (for instance because the process died or failed right after Save).")
M("C82","proved","C82_source_survives C82_package_needed C82_zip_survives C82_zip_completes C82_tar_survives C82_tar_completes","encoding/gob is modelled at the level of values (Gob.v: what is left out, nil pointers, registration, fields matched by name), not bytes. Assumed of the external libraries (libs_ok, tarlib_ok): the checkpoint structs of the decompressors and of arkive/tar survive gob themselves. Completion for zip assumes a decompressor that announces io.EOF apart from data.")
M("C83","partial","C83_offset_zero_refuted C83_only_before_the_first_byte_partial C83_offset_zero_is_nil_partial","As documented it is false: a seek source asked to save before its first Read emits Offset 0. Proved for every stack: only before the first byte, and such a checkpoint resumes like nil (for readers that do not fail and streams that are not empty; otherwise C13 applies).")
M("C84","proved","C84_features_string C84_kinds_and_levels C84_own_extractors C84_colons_confuse","Names with colons can collide: C84_colons_confuse. The name of a decompressing source is one fixed word in the model.")
M("C85","proved","C85_compress_errors C85_round_trip C85_round_trip_complete C85_source_test C85_compressed_tar_passes","Relative to the other packages: a compressor and a decompressor that belong together (tc_inverse: what is written and closed without error decodes to what was written), and a decompressor as assumed for C12 to C16 (good_codec). For sources with Read, WantSave and Resume; for ReadByte see C15. The test may also end without a verdict: too few or too many checkpoints (C68).")
