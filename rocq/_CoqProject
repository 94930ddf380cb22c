-Q theories Verif

theories/Base.v
theories/Base_proofs.v
theories/Path.v
theories/PathSpec.v
theories/Path_proofs.v
theories/Source.v
theories/Seek.v
theories/Counting.v
theories/Decomp.v
theories/Contract.v
theories/Seek_proofs.v
theories/CodecSpec.v
theories/Decomp_proofs.v
theories/Drive.v
theories/SpoilSpec.v
theories/Spoil_proofs.v
theories/Stack_proofs.v
theories/SeekTrace_proofs.v
theories/Counting_proofs.v
theories/SourceMisc_proofs.v
theories/ExCodec.v
theories/Props_source.v
theories/Props_source2.v
theories/Props_source3.v
theories/Props_source4.v
theories/Copier.v
theories/CopySpec.v
theories/Copier_proofs.v
theories/Props_copy.v
theories/Sink.v
theories/Zip.v
theories/Shallow.v
theories/SinkSpec.v
theories/LossSpec.v
theories/Settle_proofs.v
theories/Loss_proofs.v
theories/ZipSpec.v
theories/Zip_proofs.v
theories/Keeps_proofs.v
theories/Shallow_proofs.v
theories/Zip2_proofs.v
theories/Zip3_proofs.v
theories/NoteSpec.v
theories/Order_proofs.v
theories/ExSink.v
theories/ExZip.v
theories/Props_zip.v
theories/Props_zip2.v
theories/FS.v
theories/FolderSink.v
theories/FS_proofs.v
theories/FSteps_proofs.v
theories/FolderSpec.v
theories/Confine_proofs.v
theories/FSLex_proofs.v
theories/Folder_proofs.v
theories/FolderLaws.v
theories/FolderOps_proofs.v
theories/FolderMisc_proofs.v
theories/ExFolder.v
theories/Props_folder.v
theories/Props_zip_folder.v
theories/Tar.v
theories/TarSpec.v
theories/TarRead_proofs.v
theories/Tar_proofs.v
theories/Tar2_proofs.v
theories/TarOrder_proofs.v
theories/ExTar.v
theories/Props_tar.v
theories/Props_tar_folder.v
theories/Misc.v
theories/Props_misc.v
theories/Props_checker.v
theories/StopSpec.v
theories/Stop_proofs.v
theories/Stop2_proofs.v
theories/Stop3_proofs.v
theories/Props_stop.v
theories/Props_stop2.v
theories/Features.v
theories/CallsSpec.v
theories/Props_calls.v
theories/Props_lazy.v
theories/Props_spoil.v
theories/Again.v
theories/Again_proofs.v
theories/Again2_proofs.v
theories/Props_again.v
theories/Reenter.v
theories/Reenter_proofs.v
theories/Saves_proofs.v
theories/Props_saves.v
theories/SavesSpec.v
theories/Saves2_proofs.v
theories/Props_saves2.v
theories/Props_reenter.v
theories/LaterSpec.v
theories/Props_later.v
theories/Props_later_tar.v
theories/Parents_proofs.v
theories/Props_parents.v
theories/FileSource.v
theories/Props_file.v
theories/Windows.v
theories/Windows_proofs.v
theories/Props_windows.v
theories/CheckerLaws.v
theories/Touched_proofs.v
theories/Props_checker2.v
theories/Props_kept.v
theories/Props_kept_tar.v
theories/Used.v
theories/UsedSpec.v
theories/Used_proofs.v
theories/Props_used.v
theories/Generators.v
theories/GeneratorsSpec.v
theories/Props_generators.v
theories/Props_shallow.v
theories/Props_shallow_tar.v
theories/Gob.v
theories/GobCk.v
theories/GobSpec.v
theories/Gob_proofs.v
theories/GobCk_proofs.v
theories/Props_gob.v
theories/Props_gob_tar.v
theories/Names.v
theories/Props_names.v
theories/Props_count.v
theories/Props_loss.v
theories/Props_loss_tar.v
theories/Props_zero.v
theories/Compress.v
theories/Props_compress.v
theories/Props_shallow_tar2.v
theories/Props_compress2.v
theories/Props_checker_nuke.v
theories/Assumptions.v
