{
 "claims": [
  {
   "property": "C01",
   "status": "proved",
   "theorems": [
    "C01_seek_delivers_in_order",
    "C01_seek_reaches_the_end"
   ],
   "note": "Any data, section, reader behaviour (short reads, failing reads, EOF with data) and operation sequence."
  },
  {
   "property": "C02",
   "status": "proved",
   "theorems": [
    "C02_seek_checkpoints_resume"
   ],
   "note": ""
  },
  {
   "property": "C03",
   "status": "proved",
   "theorems": [
    "C03_wantsave_one_checkpoint"
   ],
   "note": "Exact checkpoints of every operation are given by the specification expect_cks (Drive.v)."
  },
  {
   "property": "C04",
   "status": "partial",
   "theorems": [
    "C04_section_isolation_partial",
    "C04_section_overflow_refuted"
   ],
   "note": "Holds at every nesting depth for windows whose end does not overflow int64; with overflow Section accepts a window that does not fit (refuted)."
  },
  {
   "property": "C05",
   "status": "partial",
   "theorems": [
    "C05_in_range_stays_inside_partial",
    "C05_read_panics_refuted",
    "C05_readbyte_outside_refuted"
   ],
   "note": "False of the code: an offset beyond Size() is accepted by Resume, then Read panics and ReadByte in a section returns bytes outside the window. Proved for in-range offsets."
  },
  {
   "property": "C06",
   "status": "proved",
   "theorems": [
    "C06_no_data_before_resume"
   ],
   "note": "Seek sources and any stack of decompressing sources."
  },
  {
   "property": "C07",
   "status": "proved",
   "theorems": [
    "C07_negative_offset_rejected"
   ],
   "note": ""
  },
  {
   "property": "C08",
   "status": "proved",
   "theorems": [
    "C08_seek_progress",
    "C08_wrapped_progress"
   ],
   "note": "Progress as an exact rational; float64 rounding is not modelled."
  },
  {
   "property": "C09",
   "status": "proved",
   "theorems": [
    "C09_counting_transparent"
   ],
   "note": "For any wrapped SeekSource."
  },
  {
   "property": "C10",
   "status": "proved",
   "theorems": [
    "C10_counting_callback",
    "C10_counting_any_time",
    "C10_counting_fires"
   ],
   "note": ""
  },
  {
   "property": "C11",
   "status": "proved",
   "theorems": [
    "C11_discard_advances_exactly"
   ],
   "note": "On any stack, at any point of its life."
  },
  {
   "property": "C12",
   "status": "proved",
   "theorems": [
    "C12_saving_invisible",
    "C12_reaches_the_end"
   ],
   "note": "Any codec, stack, schedule; conditions on the codec are those of stk_den (Drive.v)."
  },
  {
   "property": "C13",
   "status": "proved",
   "theorems": [
    "C13_checkpoints_resume"
   ],
   "note": "Any stacking depth, same or other source object, any history."
  },
  {
   "property": "C14",
   "status": "proved",
   "theorems": [
    "C14_unusable_checkpoint",
    "C13_checkpoints_resume"
   ],
   "note": "Fallback on a newly built source; the clause on successful Resume offsets is also in C13_checkpoints_resume."
  },
  {
   "property": "C15",
   "status": "partial",
   "theorems": [
    "C15_readbyte_partial",
    "C15_phantom_byte_refuted",
    "C15_last_byte_with_eof_refuted"
   ],
   "note": "False in two cases (two saves becoming ready within one ReadByte; io.EOF returned with the last data); proved when the decompressors have no empty blocks and return io.EOF separately."
  },
  {
   "property": "C16",
   "status": "proved",
   "theorems": [
    "C16_never_a_clean_end",
    "C16_truncated"
   ],
   "note": ""
  },
  {
   "property": "C17",
   "status": "partial",
   "theorems": [
    "C17_failing_consumer_reported_partial",
    "C17_seek_swallows_refuted",
    "C17_readbyte_swallows_refuted"
   ],
   "note": "False for seek sources and for ReadByte of decompressing sources; proved for Read of every decompressing source."
  },
  {
   "property": "C18",
   "status": "partial",
   "theorems": [
    "C18_wantsave_safe_partial",
    "C18_wantsave_before_resume_refuted"
   ],
   "note": "False before the first Resume of a gzip source; proved for every stack after a successful Resume, and at any time for seek sources."
  },
  {
   "property": "C19",
   "status": "proved",
   "theorems": [
    "C19_copies_everything"
   ],
   "note": "Any environment of the copier (source, destination, consumer)."
  },
  {
   "property": "C20",
   "status": "proved",
   "theorems": [
    "C20_stop",
    "C20_stop_before_do"
   ],
   "note": ""
  },
  {
   "property": "C21",
   "status": "proved",
   "theorems": [
    "C21_save_requests"
   ],
   "note": ""
  },
  {
   "property": "C34",
   "status": "proved",
   "theorems": [
    "C34_zip_exact",
    "C34_zip_completes",
    "C34_zip_in_order",
    "C34_folder_exact",
    "C34_folder_completes"
   ],
   "note": "Any lawful sink (failing at any time), archive reader, save consumer. The deflate decompressor is any block transducer that signals block boundaries separately from data."
  },
  {
   "property": "C35",
   "status": "proved",
   "theorems": [
    "C35_zip_resume_exact",
    "C35_same_contents",
    "C35_zip_resume_completes",
    "C35_folder_resume_exact",
    "C35_folder_resume_completes",
    "C35_needs_lazy_saves"
   ],
   "note": "Any history of stopped, failed and killed runs and of power failures that spare what LossSpec.v says, resumed from any checkpoint of the current lineage (resuming an older checkpoint invalidates the later ones). Holds for archives the sink can store (kl_valid)."
  },
  {
   "property": "C36",
   "status": "proved",
   "theorems": [
    "C36_zip_checkpoint_synced",
    "C36_folder_checkpoint_synced"
   ],
   "note": ""
  },
  {
   "property": "C37",
   "status": "partial",
   "theorems": [
    "C37_zip_power_loss_refuted",
    "C37_folder_power_loss_refuted",
    "C37_zip_power_loss_partial",
    "C37_zip_power_loss_any_time_partial",
    "C37_zip_power_loss_completes_partial",
    "C37_folder_power_loss_partial",
    "C37_folder_power_loss_completes_partial"
   ],
   "note": "False of the code: files completed earlier are not synced before they are closed. Proved, for a power loss at any moment of any history, if it spares what was complete when the checkpoint was saved and the first WriteOffset bytes of the file in progress (C36: those are synced at that moment); the folder versions also assume that names, folders and symlinks survive. Missing: that finished files survive, which the code does nothing for."
  },
  {
   "property": "C38",
   "status": "proved",
   "theorems": [
    "C38_encrypted_never_written",
    "C38_encrypted_refused"
   ],
   "note": ""
  },
  {
   "property": "C39",
   "status": "proved",
   "theorems": [
    "C39_normalized_names_safe",
    "C39_unsafe_rejected",
    "C39_accepted_by_folder_sink"
   ],
   "note": "FolderSink with a Directory other than the file system root (which rejects every entry but itself)."
  },
  {
   "property": "C40",
   "status": "proved",
   "theorems": [
    "C40_result_lists_archive"
   ],
   "note": "Any sink and history."
  },
  {
   "property": "C41",
   "status": "proved",
   "theorems": [
    "C41_support",
    "C41_no_checkpoint_in_lzma"
   ],
   "note": ""
  },
  {
   "property": "C42",
   "status": "proved",
   "theorems": [
    "C42_zip_progress"
   ],
   "note": "Progress as exact rationals; float64 rounding is not modelled; total size positive (otherwise NaN)."
  },
  {
   "property": "C43",
   "status": "proved",
   "theorems": [
    "C43_zip_retry_same_object",
    "C43_zip_one_retry",
    "C65_zip_spoilt_completes",
    "C35_folder_resume_exact"
   ],
   "note": ""
  },
  {
   "property": "C22",
   "status": "proved",
   "theorems": [
    "C22_escape_rejected",
    "C22_only_escapes_rejected",
    "C22_paths_inside"
   ],
   "note": "Every operation, any Directory and working directory; a file entry that denotes Directory itself makes the sink create Directory's parent, which is the only path above it."
  },
  {
   "property": "C23",
   "status": "proved",
   "theorems": [
    "C23_confined_without_symlinks"
   ],
   "note": "Every history of operations on a file system with no symbolic links on or below Directory."
  },
  {
   "property": "C24",
   "status": "partial",
   "theorems": [
    "C24_symlink_escape_refuted",
    "C24_confined_partial"
   ],
   "note": "False of the code: a chain of symlinks, each passing the lexical check, leads outside. Proved for symlink entries whose targets are plain."
  },
  {
   "property": "C25",
   "status": "proved",
   "theorems": [
    "C25_bad_target_rejected",
    "C25_symlink_created"
   ],
   "note": ""
  },
  {
   "property": "C26",
   "status": "proved",
   "theorems": [
    "C26_resume_keeps_prefix",
    "C26_getwriter_succeeds"
   ],
   "note": ""
  },
  {
   "property": "C27",
   "status": "proved",
   "theorems": [
    "C27_retired_writer_is_dead"
   ],
   "note": "Getting a writer for a name the sink ignores (Icon\\r) does not retire the previous one."
  },
  {
   "property": "C28",
   "status": "partial",
   "theorems": [
    "C28_folder_in_the_way_refuted",
    "C28_transient_lstat_refuted",
    "C28_getwriter_makes_file_partial",
    "C28_getwriter_success_partial",
    "C28_mkdir_makes_folder",
    "C25_symlink_created"
   ],
   "note": "False for a file entry over a folder (GetWriter reports an error and leaves the folder), and a transient Lstat failure makes the sink follow a symlink in the way. Proved for everything else."
  },
  {
   "property": "C29",
   "status": "proved",
   "theorems": [
    "C29_getwriter_mode",
    "C29_preallocate_mode"
   ],
   "note": ""
  },
  {
   "property": "C30",
   "status": "proved",
   "theorems": [
    "C30_ignored",
    "C30_ignored_writer",
    "C30_others_not_ignored"
   ],
   "note": ""
  },
  {
   "property": "C31",
   "status": "proved",
   "theorems": [
    "C31_preallocate_keeps_data",
    "C31_preallocate_then_write"
   ],
   "note": ""
  },
  {
   "property": "C32",
   "status": "partial",
   "theorems": [
    "C32_nuke_empty_directory_refuted",
    "C32_nuke_partial",
    "C27_retired_writer_is_dead"
   ],
   "note": "False when Directory is empty (nothing is removed although the working directory is written to). Proved otherwise."
  },
  {
   "property": "C33",
   "status": "partial",
   "theorems": [
    "C33_leak_refuted",
    "C33_open_files_partial",
    "C33_none_open_after_close_partial"
   ],
   "note": "False when the final Seek or Truncate of GetWriter fails (the handle leaks). Proved for histories without that failure."
  },
  {
   "property": "C44",
   "status": "proved",
   "theorems": [
    "C44_tar_exact",
    "C44_tar_completes",
    "C44_tar_in_order",
    "C44_tar_folder_exact"
   ],
   "note": "The abstract sink meets the sink laws proved of FolderSink; C44_tar_folder_exact composes the extractor with FolderSink itself."
  },
  {
   "property": "C45",
   "status": "proved",
   "theorems": [
    "C45_tar_resume_exact",
    "C45_tar_resume_completes",
    "C45_tar_resume_in_order",
    "C45_tar_folder_resume_exact",
    "C45_tar_folder_resume_completes"
   ],
   "note": "Process crashes, failures and stops at any point, any number of times, and power failures that spare what LossSpec.v says. Sources whose checkpoints are taken lazily (see DESIGN.md)."
  },
  {
   "property": "C46",
   "status": "partial",
   "theorems": [
    "C46_tar_result_refuted",
    "C46_tar_result_partial"
   ],
   "note": "False: directories and symlinks are missing from the result. Proved: it lists exactly the regular files, in order, with the bytes written, whatever the interruptions."
  },
  {
   "property": "C47",
   "status": "partial",
   "theorems": [
    "C47_tar_power_loss_refuted",
    "C47_tar_never_syncs",
    "C47_tar_power_loss_partial",
    "C47_tar_power_loss_any_time_partial",
    "C47_tar_power_loss_completes_partial",
    "C47_tar_folder_power_loss_partial",
    "C47_tar_folder_power_loss_completes_partial"
   ],
   "note": "False: the tar extractor never syncs its writer before saving. Proved, for a power loss at any moment of any history, when it spares the entries finished when the checkpoint was saved and the first WriteOffset bytes of the current file; the folder versions also assume that names, folders and symlinks survive. Missing: that this much survives, which the code does nothing for."
  },
  {
   "property": "C48",
   "status": "partial",
   "theorems": [
    "C48_tar_retry_same_object_refuted",
    "C48_tar_retry_same_object_partial"
   ],
   "note": "False: Resume advances WriteOffset in the caller's object while its tar position stays, so a retry repeats bytes. Proved when the object is still in step or holds no position."
  },
  {
   "property": "C49",
   "status": "proved",
   "theorems": [
    "C49_tar_checkpoint"
   ],
   "note": ""
  },
  {
   "property": "C55",
   "status": "partial",
   "theorems": [
    "C55_interleaved_sections_refuted",
    "C55_sections_in_turn_partial"
   ],
   "note": "False: sections share one read seeker. Proved when every session on a section starts with Resume."
  },
  {
   "property": "C57",
   "status": "partial",
   "theorems": [
    "C57_tar_damage_after_end_refuted",
    "C57_tar_archive_intact_partial"
   ],
   "note": "False: the stream is not read past the end-of-archive marker. Proved: everything up to the marker was intact."
  },
  {
   "property": "C58",
   "status": "proved",
   "theorems": [
    "C58_tar_progress"
   ],
   "note": ""
  },
  {
   "property": "C50",
   "status": "proved",
   "theorems": [
    "C50_size",
    "C50_stats"
   ],
   "note": "Sums are 64 bit: exact as long as they fit. The wording of the summary is not modelled."
  },
  {
   "property": "C51",
   "status": "proved",
   "theorems": [
    "C51_nop_sink",
    "C51_zip_to_nop",
    "C51_tar_to_nop",
    "C30_ignored_writer"
   ],
   "note": ""
  },
  {
   "property": "C52",
   "status": "proved",
   "theorems": [
    "C52_checker_write",
    "C52_checker_seek"
   ],
   "note": ""
  },
  {
   "property": "C53",
   "status": "partial",
   "theorems": [
    "C53_validate_misses_holes_refuted",
    "C53_validate_misses_middle_refuted",
    "C53_validate_empty_symlink_refuted",
    "C53_written_is_expected",
    "C53_validate_sound_partial"
   ],
   "note": "False: only the first and last offset written are recorded, so holes go unnoticed. Proved when no writer starts beyond what was written."
  },
  {
   "property": "C54",
   "status": "proved",
   "theorems": [
    "C54_exact_length",
    "C54_prefix"
   ],
   "note": "For every generator of random numbers. Termination depends on the generator and is not claimed."
  },
  {
   "property": "C59",
   "status": "proved",
   "theorems": [
    "C59_correct_extraction_passes",
    "C59_after_nuke"
   ],
   "note": ""
  },
  {
   "property": "C60",
   "status": "proved",
   "theorems": [
    "C60_counter"
   ],
   "note": "As long as the total number of bytes fits in 63 bits."
  },
  {
   "property": "C56",
   "status": "proved",
   "theorems": [
    "C56_tar_object_spent",
    "C56_tar_object_restarts"
   ],
   "note": "The sink, the consumer and the header parser must not return savior.ErrStop as errors of their own."
  },
  {
   "property": "C61",
   "status": "proved",
   "theorems": [
    "C61_zip_stop",
    "C61_zip_errstop",
    "C61_tar_stop",
    "C61_tar_errstop"
   ],
   "note": ""
  },
  {
   "property": "C62",
   "status": "partial",
   "theorems": [
    "C62_zip_save_error_refuted",
    "C62_tar_save_error_refuted",
    "C62_zip_save_error_partial",
    "C62_tar_save_error_partial"
   ],
   "note": "False for data that is not compressed: seeksource drops the error of Save. Proved for archives without stored entries and for compressed tar streams."
  },
  {
   "property": "C63",
   "status": "proved",
   "theorems": [
    "C63_zip_sink_use",
    "C63_tar_sink_use"
   ],
   "note": ""
  },
  {
   "property": "C64",
   "status": "proved",
   "theorems": [
    "C64_tar_support",
    "C64_sources_support",
    "C64_tar_prealloc",
    "C64_zip_prealloc"
   ],
   "note": ""
  },
  {
   "property": "C65",
   "status": "proved",
   "theorems": [
    "C65_spoilt_source",
    "C65_zip_spoilt_exact",
    "C65_zip_spoilt_completes",
    "C65_tar_spoilt_exact",
    "C65_tar_spoilt_completes"
   ],
   "note": "Completion for zip: if neither the readers nor the decompressor return io.EOF together with data."
  },
  {
   "property": "C66",
   "status": "proved",
   "theorems": [
    "C66_zip_stop_resume",
    "C66_zip_safe",
    "C66_tar_stop_resume",
    "C66_tar_safe",
    "C66_zip_folder",
    "C66_tar_folder"
   ],
   "note": "zip_again/tar_again model the loop of RunExtractorText."
  },
  {
   "property": "C67",
   "status": "proved",
   "theorems": [
    "C67_resume_within_save"
   ],
   "note": "For decompressors that signal block boundaries without data (see C35_needs_lazy_saves)."
  },
  {
   "property": "C68",
   "status": "partial",
   "theorems": [
    "C68_tester_correct_source",
    "C68_source_test",
    "C68_tester_sound_partial",
    "C68_truncation_unnoticed_refuted",
    "C68_needs_lazy_saves"
   ],
   "note": "Correct sources are never blamed (proved); but the tester does not notice that a source ends early: what a passed test means is that the source delivers a prefix of the reference (proved)."
  },
  {
   "property": "C69",
   "status": "proved",
   "theorems": [
    "C69_saves_requested"
   ],
   "note": ""
  },
  {
   "property": "C70",
   "status": "proved",
   "theorems": [
    "C70_zip_saves_on_demand",
    "C70_tar_saves_on_demand"
   ],
   "note": ""
  },
  {
   "property": "C71",
   "status": "partial",
   "theorems": [
    "C71_zip_reported_at_most",
    "C71_tar_reported_at_most",
    "C71_zip_all_reported_partial",
    "C71_tar_all_reported_partial",
    "C71_all_reported_refuted"
   ],
   "note": "False as documented: zip entries copied by io.Copy are not reported at all, and neither is the last chunk if it comes together with io.EOF. The bounds hold always, equality where neither happens."
  },
  {
   "property": "C72",
   "status": "proved",
   "theorems": [
    "C72_zip_checkpoints_advance",
    "C72_zip_checkpoint_progress",
    "C72_zip_resume_gets_past",
    "C72_tar_checkpoints_advance"
   ],
   "note": "\"Past\" is for entries the sink does not ignore (for an ignored entry nothing is written, its WriteOffset stays 0). Within one run two consecutive checkpoints can have the same position (empty blocks)."
  },
  {
   "property": "C73",
   "status": "partial",
   "theorems": [
    "C73_parent_folders_partial",
    "C73_new_folder_modes_partial",
    "C73_mode_0755_refuted"
   ],
   "note": "The parents exist and old ones keep their mode (proved, for locations without symlinks or files above them); but only Mkdir asks for 0755, the other calls ask for 0777 (refuted with umask 0). With umask 022 all are 0755."
  },
  {
   "property": "C74",
   "status": "partial",
   "theorems": [
    "C74_sizes_partial",
    "C74_preallocate_truncates_refuted",
    "C74_getwriter_truncates_refuted"
   ],
   "note": "The README has it the other way round; the exact sizes are proved."
  },
  {
   "property": "C75",
   "status": "partial",
   "theorems": [
    "C75_open_files_partial",
    "C75_open_delivers_partial",
    "C75_open_paused",
    "C75_close",
    "C75_stat_error_swallowed_refuted",
    "C75_failed_open_leaks_refuted"
   ],
   "note": "False in two ways: FromFile swallows a Stat error and takes the file to be empty; Open leaves the file open if Resume's Seek fails. Proved otherwise."
  },
  {
   "property": "C76",
   "status": "proved",
   "theorems": [
    "C76_symlink_becomes_text_file",
    "C76_ignored"
   ],
   "note": "The Windows branch of the code (no Chmod, GetWriter/Write/Close instead of Symlink) on the file-system model with slash paths; Windows paths (drives, backslashes, reserved names) are not modelled. A folder in the way makes it fail (example), against the README's other promise, see C28."
  },
  {
   "property": "C77",
   "status": "partial",
   "theorems": [
    "C77_zip_validates_partial",
    "C77_zip_passes_partial",
    "C77_tar_validates",
    "C77_tar_passes",
    "C77_empty_refuted"
   ],
   "note": "False for empty zip entries that are neither stored nor deflated: io.Copy never calls Write, so Validate finds the start of the file missing. Proved for tar archives without restriction and for zip archives whose empty files, if any, are stored or deflated."
  },
  {
   "property": "C78",
   "status": "partial",
   "theorems": [
    "C78_zip_kept_object",
    "C78_zip_kept_object_completes",
    "C78_tar_kept_spent_partial",
    "C78_tar_kept_object_partial",
    "C78_tar_kept_object_refuted"
   ],
   "note": "Holds for zip, also any number of times (ZlKept in zlife: C43_zip_retry_same_object). False for tar after a failure: WriteOffset in the object has moved on, its tar position has not. Proved for tar if the run was stopped or done (the object then starts over), or if nothing was written since the save."
  },
  {
   "property": "C79",
   "status": "partial",
   "theorems": [
    "C79_reused_exact_partial",
    "C79_reused_completes_partial",
    "C79_reused_progress_refuted",
    "C79_stale_checkpoint_refuted"
   ],
   "note": "For tar (a zip extractor makes new sources itself). Proved: exactness on success, no panics, completion, for any history of uses of the source that did not include a failure of the source's own Resume. False: progress (a SeekSource keeps the save request made while the first run was stopping, so every further run saves and stops at the same place), and the last clause (while Resume repositions a used source, the closure of the earlier run is still its save consumer and hands out a checkpoint of that run, which skips the rest of a file)."
  },
  {
   "property": "C80",
   "status": "proved",
   "theorems": [
    "C80_test_sink",
    "C80_never_a_symlink",
    "C80_zip_passes",
    "C80_zip_methods",
    "C80_tar_passes"
   ],
   "note": "The writers of arkive/zip and arkive/tar are assumed to write archives that read back as what they were given (GeneratorsSpec.v); items of unknown kind are excluded (they are skipped by the generators and then missing for Validate)."
  },
  {
   "property": "C81",
   "status": "partial",
   "theorems": [
    "C81_zip_shallow",
    "C81_zip_shallow_completes",
    "C81_tar_shallow_refuted",
    "C81_tar_shallow_partial",
    "C81_tar_shallow_completes_partial"
   ],
   "note": "Holds for zip; completion assumes sources that announce io.EOF apart from data. Histories with shallow copies are part of zlife with mem = true (ZlFreshShallow, ZlResumeShallow), so C43, C65, C66 and C78 for zip cover them as well. False for tar: a run that is stopped at a checkpoint still writes what was just read, so the copy has a WriteOffset ahead of its tar position; resuming from it ends without error with bytes twice in the file and the entry twice in the result. Proved for tar: a copy of the last checkpoint of a run, if since then no byte of its entry was written (for instance because the process died or failed right after Save)."
  },
  {
   "property": "C82",
   "status": "proved",
   "theorems": [
    "C82_source_survives",
    "C82_package_needed",
    "C82_zip_survives",
    "C82_zip_completes",
    "C82_tar_survives",
    "C82_tar_completes"
   ],
   "note": "encoding/gob is modelled at the level of values (Gob.v: what is left out, nil pointers, registration, fields matched by name), not bytes. Assumed of the external libraries (libs_ok, tarlib_ok): the checkpoint structs of the decompressors and of arkive/tar survive gob themselves. Completion for zip assumes a decompressor that announces io.EOF apart from data."
  },
  {
   "property": "C83",
   "status": "partial",
   "theorems": [
    "C83_offset_zero_refuted",
    "C83_only_before_the_first_byte_partial",
    "C83_offset_zero_is_nil_partial"
   ],
   "note": "As documented it is false: a seek source asked to save before its first Read emits Offset 0. Proved for every stack: only before the first byte, and such a checkpoint resumes like nil (for readers that do not fail and streams that are not empty; otherwise C13 applies)."
  },
  {
   "property": "C84",
   "status": "proved",
   "theorems": [
    "C84_features_string",
    "C84_kinds_and_levels",
    "C84_own_extractors",
    "C84_colons_confuse"
   ],
   "note": "Names with colons can collide: C84_colons_confuse. The name of a decompressing source is one fixed word in the model."
  },
  {
   "property": "C85",
   "status": "proved",
   "theorems": [
    "C85_compress_errors",
    "C85_round_trip",
    "C85_round_trip_complete",
    "C85_source_test",
    "C85_compressed_tar_passes"
   ],
   "note": "Relative to the other packages: a compressor and a decompressor that belong together (tc_inverse: what is written and closed without error decodes to what was written), and a decompressor as assumed for C12 to C16 (good_codec). For sources with Read, WantSave and Resume; for ReadByte see C15. The test may also end without a verdict: too few or too many checkpoints (C68)."
  }
 ]
}