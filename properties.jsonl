{"id": "C01", "title": "SeekSource delivers exactly its bytes, in order", "statement": "After Resume(nil), any sequence of Read and ReadByte calls on a seek source returns consecutive pieces of the underlying data starting at byte 0: nothing is skipped, repeated, reordered or invented; Tell() always equals the number of bytes delivered; io.EOF is returned only once Size() bytes have been delivered.", "quantifier": "every data content and length, every sequence of Read sizes / ReadByte / WantSave calls, every short-read and error pattern of the underlying ReadSeeker", "why_tests_cant": "depends on all interleavings of buffer refills, bypass reads and short reads; tests only try one reader and a few buffer sizes", "anchors": ["seeksource/seeksource.go: Read, ReadByte, Tell"]}
{"id": "C02", "title": "SeekSource checkpoints resume at the byte where they were taken", "statement": "A checkpoint emitted by a seek source carries the number of bytes delivered before the call that emitted it; passing it to Resume on the same source or on a fresh source over the same data returns that offset and the following reads deliver exactly the bytes from that offset on.", "quantifier": "every data, every history of reads before and after the checkpoint, same or fresh source", "why_tests_cant": "the crash/resume point can be any byte and any buffer state", "anchors": ["seeksource/seeksource.go: Resume, handleSave"]}
{"id": "C03", "title": "WantSave yields exactly one checkpoint, and only on request", "statement": "If a save consumer is registered, WantSave() causes exactly one checkpoint, at the next Read with a non-empty buffer (or ReadByte) that is not at the end of the source; without WantSave no checkpoint is ever emitted; several WantSave calls before that read coalesce into one.", "quantifier": "every sequence of operations on a seek source", "why_tests_cant": "absence of spurious or duplicate checkpoints is a statement about all call sequences", "anchors": ["seeksource/seeksource.go: WantSave, handleSave"]}
{"id": "C04", "title": "Section isolation", "statement": "Section(start,size) succeeds exactly when start>=0, size>=0 and the window fits in the source; the returned source, once resumed, reads exactly the bytes [start,start+size) of its parent, sections of sections compose, and reads after any checkpoint it emitted stay inside the window.", "quantifier": "every data, all start/size values (as int64), every nesting depth and read schedule", "why_tests_cant": "range over all integers including ones that overflow, all nestings", "anchors": ["seeksource/seeksource.go: Section, Resume, Read, ReadByte"]}
{"id": "C05", "title": "A source never reads beyond its size, even after a bad checkpoint", "statement": "Whatever checkpoint is given to Resume (including offsets larger than Size()), subsequent Read/ReadByte calls never return bytes from outside the source's [0,Size()) window and never panic.", "quantifier": "every checkpoint offset, every read", "why_tests_cant": "adversarial / corrupted checkpoints are unbounded in number", "anchors": ["seeksource/seeksource.go: Resume, Read, ReadByte"]}
{"id": "C06", "title": "No data before Resume", "statement": "Reading from any source (seek, flate, gzip, bzip2, brotli) before Resume was called returns ErrUninitializedSource and no data, whatever else was called before.", "quantifier": "every source kind, every pre-Resume call sequence and buffer size", "why_tests_cant": "all call sequences", "anchors": ["seeksource/seeksource.go: Read, ReadByte", "flatesource/flatesource.go: Read", "gzipsource/gzipsource.go: Read", "bzip2source/bzip2source.go: Read", "brotlisource/brotlisource.go: Read"]}
{"id": "C07", "title": "Negative checkpoint offsets are rejected", "statement": "Resume with a checkpoint whose Offset is negative returns an error, and leaves position and buffered data of a seek source as they were.", "quantifier": "every negative offset, every source state", "why_tests_cant": "all int64 values and prior states", "anchors": ["seeksource/seeksource.go: Resume"]}
{"id": "C08", "title": "Source progress is a monotone fraction", "statement": "Progress() of a seek source lies in [0,1], is 0 after Resume(nil), reaches 1 at EOF of a non-empty source and never decreases between Resumes; decompressing and counting sources report the progress of what they wrap.", "quantifier": "every source state reachable with in-range checkpoints, every read sequence", "why_tests_cant": "monotonicity along all executions", "anchors": ["seeksource/seeksource.go: Progress", "flatesource/flatesource.go: Progress"]}
{"id": "C09", "title": "CountingSource is transparent", "statement": "Wrapping a seek source in a counting source changes no result of Resume, Read, ReadByte, Tell, Size, Section or WantSave and no emitted checkpoint.", "quantifier": "every operation sequence", "why_tests_cant": "observational equivalence over all histories", "anchors": ["countingsource/countingsource.go"]}
{"id": "C10", "title": "CountingSource callback reports true, increasing offsets", "statement": "Every callback value is the number of bytes delivered so far (for sections: relative to the original source, including nested sections), between Resumes the values never decrease, and the callback fires each time more than 128KiB have been read since the last callback.", "quantifier": "every read schedule, every section nesting", "why_tests_cant": "all schedules of read sizes", "anchors": ["countingsource/countingsource.go: Read, ReadByte, Section"]}
{"id": "C11", "title": "DiscardByRead advances by exactly delta or fails", "statement": "DiscardByRead(source, delta) returning nil has consumed exactly delta bytes (none if delta<=0) and the next byte read is the one delta bytes further; if fewer than delta bytes are left it returns an error; it never consumes more than delta bytes.", "quantifier": "every source obeying the Source contract, every delta, every chunking", "why_tests_cant": "all chunk patterns and deltas", "anchors": ["source.go: DiscardByRead"]}
{"id": "C12", "title": "Saving is invisible to the reader of a decompressing source", "statement": "For flate, gzip, bzip2 and brotli sources the concatenation of what Read returns is a prefix of the decompression of the underlying stream, whatever saves are requested and whenever the decompressor chooses to stop at a block boundary; the internal ready-to-save signal is never returned to the caller.", "quantifier": "every compressed stream and codec, every schedule of reads and save requests", "why_tests_cant": "save points depend on block layout and timing of requests", "anchors": ["flatesource/flatesource.go: Read", "gzipsource/gzipsource.go: Read", "bzip2source/bzip2source.go: Read", "brotlisource/brotlisource.go: Read"]}
{"id": "C13", "title": "Decompressing sources resume exactly at their checkpoints", "statement": "Any checkpoint emitted by a flate/gzip/bzip2/brotli source, given to Resume on the same or on a fresh source over the same compressed data, returns the checkpoint's Offset and subsequent reads deliver exactly the decompressed bytes from that offset; this also holds for decompressors stacked on decompressors.", "quantifier": "every compressed stream, every checkpoint position, every history before and after, any stacking depth", "why_tests_cant": "crash points and block layouts are unbounded", "anchors": ["flatesource/flatesource.go: Resume, Read", "gzipsource/gzipsource.go: Resume, Read", "bzip2source/bzip2source.go: Resume, Read", "brotlisource/brotlisource.go: Resume, Read"]}
{"id": "C14", "title": "Unusable checkpoints fall back to the start", "statement": "If a decompressing source is given a checkpoint that is not its own kind, or whose decompressor state cannot be restored, or that does not line up with the underlying source, Resume either reports an error or restarts from the beginning, returning offset 0 with the next reads delivering the stream from byte 0; it never delivers bytes from a wrong position. The offset returned by a successful Resume always equals the position of the next byte delivered.", "quantifier": "every checkpoint value, every stream", "why_tests_cant": "arbitrary foreign or damaged checkpoints", "anchors": ["flatesource/flatesource.go: Resume", "gzipsource/gzipsource.go: Resume", "bzip2source/bzip2source.go: Resume", "brotlisource/brotlisource.go: Resume"]}
{"id": "C15", "title": "ReadByte agrees with Read and invents nothing", "statement": "A ReadByte call returning a nil error delivers the next byte of the stream, also when a save happens during the call; ReadByte never returns a stale or made-up byte with a nil error.", "quantifier": "every source, every position, every pending save request", "why_tests_cant": "a save can coincide with any ReadByte", "anchors": ["gzipsource/gzipsource.go: ReadByte", "flatesource/flatesource.go: ReadByte", "seeksource/seeksource.go: ReadByte"]}
{"id": "C16", "title": "Damaged or truncated input is never reported as a clean end", "statement": "If the compressed stream ends early or is corrupt, the decompressing source delivers only bytes of the correct decoded prefix and finishes with an error, never with io.EOF.", "quantifier": "every truncation point and corruption, every read schedule", "why_tests_cant": "all truncation points", "anchors": ["flatesource/flatesource.go: Read", "gzipsource/gzipsource.go: Read", "bzip2source/bzip2source.go: Read", "brotlisource/brotlisource.go: Read"]}
{"id": "C17", "title": "A failing save consumer is reported", "statement": "If the registered save consumer returns an error from Save, the read during which it was called returns that error (so that an extraction stops instead of continuing with unsaved state).", "quantifier": "every source kind, every moment of saving", "why_tests_cant": "every coincidence of save and read kind", "anchors": ["seeksource/seeksource.go: handleSave", "flatesource/flatesource.go: Read, ReadByte"]}
{"id": "C18", "title": "WantSave at any time is safe", "statement": "Calling WantSave at any time, including before the first Resume, never makes a later Resume or Read panic.", "quantifier": "every call sequence over SetSourceSaveConsumer/WantSave/Resume/Read", "why_tests_cant": "all call orders", "anchors": ["gzipsource/gzipsource.go: SetSourceSaveConsumer, Resume", "flatesource/flatesource.go: SetSourceSaveConsumer, Resume"]}
{"id": "C19", "title": "Copier copies everything up to EOF", "statement": "If Copier.Do returns nil without Stop having been called, the destination has received exactly the bytes the source delivered up to io.EOF, in order, each once; if the source fails, what it delivered before (and together with) the error has been written and the error is returned; a write error is returned and nothing more is read.", "quantifier": "every source behaviour (chunk sizes, data together with errors), every writer behaviour", "why_tests_cant": "all chunkings and failure positions", "anchors": ["copy.go: Copier.Do"]}
{"id": "C20", "title": "Copier stops at the end of the current chunk", "statement": "If Stop is called while Do is running (for instance from the save consumer, inside Read), the chunk being read is still written, no further Read happens, and Do returns nil; a Stop issued before Do has no effect.", "quantifier": "every moment at which Stop is called", "why_tests_cant": "all interleavings of saving and copying", "anchors": ["copy.go: Copier.Do, Stop"]}
{"id": "C21", "title": "Copier asks the save consumer exactly once per chunk", "statement": "ShouldSave is called exactly once per successfully copied chunk with that chunk's length, and WantSave is called exactly for the chunks for which it answered true; progress is emitted exactly when more than 512KiB were written since the last emission.", "quantifier": "every chunk sequence and consumer behaviour", "why_tests_cant": "all chunk sequences", "anchors": ["copy.go: Copier.Do"]}
{"id": "C22", "title": "Escaping entries are rejected before touching the file system", "statement": "FolderSink.Mkdir, GetWriter, Preallocate and Symlink return ErrPathTraversal, with no file system change at all, exactly for entries whose CanonicalPath lexically leaves Directory; for all others (names the sink ignores excepted, for which nothing happens) every path handed to the operating system is Directory itself or lexically below it, or Directory's parent when a file entry denotes Directory itself.", "quantifier": "every Directory other than the root and every CanonicalPath byte string", "why_tests_cant": "all strings, including odd uses of '.', '..', '//' and look-alike sibling prefixes", "anchors": ["folder_sink.go: destPath, Mkdir, createFile, Symlink"]}
{"id": "C23", "title": "Without symlinks nothing outside the destination changes", "statement": "If the destination contains no symlinks and the archive creates none, then no sequence of sink operations with any paths creates, removes or modifies anything outside Directory (except creating Directory's own missing parents).", "quantifier": "every operation sequence, every initial file system, every OS failure pattern", "why_tests_cant": "all operation sequences and file systems", "anchors": ["folder_sink.go: Mkdir, GetWriter, Preallocate, Symlink, Nuke"]}
{"id": "C24", "title": "Archive symlinks cannot be used to escape the destination", "statement": "No sequence of sink operations starting from a destination without symlinks (archive entries may create symlinks) creates or modifies anything outside Directory.", "quantifier": "every sequence of entries", "why_tests_cant": "attack chains combine several entries", "anchors": ["folder_sink.go: Symlink, createFile"]}
{"id": "C25", "title": "Symlink targets are validated", "statement": "Symlink with an absolute target, or a target that lexically resolves outside Directory, is rejected with ErrPathTraversal and no file system change; an accepted symlink is created with exactly the given target text, replacing whatever was at that path.", "quantifier": "every entry path and link target", "why_tests_cant": "all strings", "anchors": ["folder_sink.go: Symlink"]}
{"id": "C26", "title": "Resuming a file keeps its prefix and nothing else", "statement": "After GetWriter(entry) succeeds and data is written, the file's content is: the first entry.WriteOffset bytes it had before (zero-filled if it was shorter), followed by exactly the bytes written since; entry.WriteOffset always equals the position of the next write.", "quantifier": "every previous content, every WriteOffset >= 0, every sequence of writes", "why_tests_cant": "all prior contents and offsets", "anchors": ["folder_sink.go: GetWriter, entryWriter.Write"]}
{"id": "C27", "title": "A superseded or closed writer can no longer write", "statement": "After GetWriter has returned a new writer for an entry the sink does not ignore, or after Close/Nuke, Write and Sync on the older writer return os.ErrClosed and change neither any file nor its entry's WriteOffset; closing twice is harmless.", "quantifier": "every sequence of sink and writer operations", "why_tests_cant": "all operation orders", "anchors": ["folder_sink.go: GetWriter, Close, entryWriter"]}
{"id": "C28", "title": "Sink fixes the type of the destination entry", "statement": "GetWriter, Mkdir and Symlink make the destination a file, directory or symlink whatever was there before: a symlink in the way of a file is replaced, never written through; a file or symlink in the way of a directory is replaced; anything in the way of a symlink is removed.", "quantifier": "every previous node at the destination", "why_tests_cant": "all prior file system states", "anchors": ["folder_sink.go: createFile, Mkdir, Symlink", "README.md: FolderSink"]}
{"id": "C29", "title": "Extracted files stay writable", "statement": "Files are created or re-opened with permissions that include 0666 (modulo umask for new files) and all bits of entry.Mode's permissions.", "quantifier": "every entry mode and previous file mode", "why_tests_cant": "all mode values", "anchors": ["folder_sink.go: createFile, ModeMask"]}
{"id": "C30", "title": "Ignored names leave no trace", "statement": "Entries whose base name is 'Icon\\r' cause no file system change through Mkdir, GetWriter (and writes to the returned writer), Preallocate or Symlink, and report success.", "quantifier": "every path with that base name, every operation", "why_tests_cant": "all paths", "anchors": ["folder_sink.go: shouldIgnorePath"]}
{"id": "C31", "title": "Preallocate never loses data", "statement": "Preallocate of a file entry keeps the existing bytes, only appends zero bytes up to UncompressedSize, never shrinks the file, and a later GetWriter+write sequence yields the same file content as without Preallocate.", "quantifier": "every previous content and every size", "why_tests_cant": "all contents and sizes", "anchors": ["folder_sink.go: Preallocate, legacyPreallocate"]}
{"id": "C32", "title": "Nuke removes exactly the destination", "statement": "After a successful Nuke nothing is left at or below Directory, everything outside is unchanged, and no writer obtained earlier can write any more.", "quantifier": "every file system and history", "why_tests_cant": "all file systems", "anchors": ["folder_sink.go: Nuke"]}
{"id": "C33", "title": "At most one open file", "statement": "The sink keeps at most one file open between operations, whatever the sequence of operations and failures.", "quantifier": "every operation sequence and OS failure pattern", "why_tests_cant": "all failure points", "anchors": ["folder_sink.go: GetWriter, createFile"]}
{"id": "C34", "title": "Zip: uninterrupted extraction is complete and exact", "statement": "If Resume(nil, sink) of a zip extractor returns without error, every directory, symlink and file entry has been handed to the sink in order, and each file contains exactly its decompressed data, whatever the save consumer asks for (as long as it does not stop).", "quantifier": "every archive (Store, Deflate, other methods), every save schedule", "why_tests_cant": "all archives and schedules", "anchors": ["zipextractor/zipextractor.go: Resume"]}
{"id": "C35", "title": "Zip: stop and resume at any checkpoint gives the same result", "statement": "Stopping (AfterSaveStop), failing or crashing at any moment after a checkpoint was handed to the save consumer and then resuming from that checkpoint with a new extractor and the same sink contents finally produces exactly the same sink contents and result as an uninterrupted extraction, any number of times.", "quantifier": "every archive, every sequence of interruptions, every crash point (process crash)", "why_tests_cant": "crash points and save points are unbounded", "anchors": ["zipextractor/zipextractor.go: Resume", "copy.go"]}
{"id": "C36", "title": "Zip: checkpoints describe data that is already on disk", "statement": "When the save consumer's Save is called by the zip extractor, the bytes of the current file below the checkpoint's Entry.WriteOffset have been synced, so that they survive a power loss.", "quantifier": "every archive and save schedule", "why_tests_cant": "crash points", "anchors": ["zipextractor/zipextractor.go: OnSave", "sink.go: EntryWriter"]}
{"id": "C37", "title": "Zip: power loss after a checkpoint loses nothing", "statement": "After a power loss at any moment after Save returned, resuming from the checkpoint produces the complete, correct output.", "quantifier": "every archive, every crash point, every subset of unsynced data lost", "why_tests_cant": "needs crash injection at every point", "anchors": ["zipextractor/zipextractor.go: OnSave", "folder_sink.go: entryWriter.Close"]}
{"id": "C38", "title": "Zip: encrypted entries are refused", "statement": "An archive with an encrypted entry makes Resume return ErrEncrypted when that entry is reached; no data of that entry is ever written.", "quantifier": "every archive and position of the encrypted entry", "why_tests_cant": "all archives", "anchors": ["zipextractor/zipextractor.go: Resume"]}
{"id": "C39", "title": "Zip: normalised names are safe", "statement": "If NewWithParams with NormalizeBackslashes accepts an archive, every non-empty entry name is local and, when the archive needed rewriting, free of backslashes; names that stay non-local make it fail with ErrInsecurePath; accepted names never make a FolderSink report path traversal.", "quantifier": "every archive directory (all name byte strings)", "why_tests_cant": "all strings", "anchors": ["zipextractor/zipextractor.go: NewWithParams, normalizeBackslashNames", "folder_sink.go: destPath"]}
{"id": "C40", "title": "Zip: result lists the whole archive", "statement": "A successful Resume returns one entry per archive member, in order, with the right kind and sizes, no matter how often extraction was interrupted; Entries() returns the same list.", "quantifier": "every archive, every interruption history", "why_tests_cant": "all histories", "anchors": ["zipextractor/zipextractor.go: Resume, Entries, zipFileEntry"]}
{"id": "C41", "title": "Zip: advertised resume support is truthful", "statement": "Features reports block-level resume exactly when no entry uses LZMA, and entry-level otherwise; for entry-level archives checkpoints are never emitted in the middle of an entry that cannot be resumed.", "quantifier": "every archive", "why_tests_cant": "all archives", "anchors": ["zipextractor/zipextractor.go: NewWithParams, Resume, Features"]}
{"id": "C42", "title": "Zip: progress stays in range and never jumps back", "statement": "Progress values reported by a zip extraction lie in [0,1] and do not decrease during a run when entry sizes are declared correctly, and a resumed run starts from the progress stored in the checkpoint or later.", "quantifier": "every archive and schedule", "why_tests_cant": "all schedules", "anchors": ["zipextractor/zipextractor.go: computeProgress"]}
{"id": "C43", "title": "Zip: retry with the same checkpoint object after a failure", "statement": "If Resume(c, sink) fails with an I/O error, calling Resume again with the same in-memory checkpoint object (which the first call has modified) still produces the correct output.", "quantifier": "every archive, every failure point", "why_tests_cant": "failure points are unbounded", "anchors": ["zipextractor/zipextractor.go: Resume"]}
{"id": "C44", "title": "Tar: uninterrupted extraction is complete and exact", "statement": "If Resume(nil, sink) of a tar extractor over any source returns without error, every directory, symlink and regular file of the tar stream has been handed to the sink in order with exactly its data; other entry types are skipped without disturbing later entries.", "quantifier": "every tar stream, every source obeying the contract (plain, gzip, bzip2, stacked), every save schedule without stop", "why_tests_cant": "all streams and schedules", "anchors": ["tarextractor/tarextractor.go: Resume"]}
{"id": "C45", "title": "Tar: stop and resume at any checkpoint gives the same result", "statement": "Stopping, failing or crashing (process crash) at any moment after a checkpoint was persisted and resuming from it with a new source and extractor finally produces exactly the sink contents of an uninterrupted extraction, any number of times.", "quantifier": "every tar stream, every source kind, every interruption history", "why_tests_cant": "crash points and save points are unbounded", "anchors": ["tarextractor/tarextractor.go: Resume", "copy.go"]}
{"id": "C46", "title": "Tar: result lists the complete contents", "statement": "A successful Resume returns the complete contents of the archive (all files, directories and symlinks), independent of interruptions.", "quantifier": "every tar stream and interruption history", "why_tests_cant": "all histories", "anchors": ["tarextractor/tarextractor.go: Resume", "README.md: Extractors"]}
{"id": "C47", "title": "Tar: power loss after a checkpoint loses nothing", "statement": "After a power loss at any moment after Save returned, resuming a tar extraction from the checkpoint produces the complete, correct output.", "quantifier": "every tar stream, every crash point", "why_tests_cant": "needs crash injection at every point", "anchors": ["tarextractor/tarextractor.go: OnSave (FIXME: not syncing)"]}
{"id": "C48", "title": "Tar: retry with the same checkpoint object after a failure", "statement": "If Resume(c, sink) fails with an I/O error, calling Resume again with the same in-memory checkpoint object still produces the correct output.", "quantifier": "every tar stream, every failure point", "why_tests_cant": "failure points are unbounded", "anchors": ["tarextractor/tarextractor.go: Resume"]}
{"id": "C49", "title": "Tar: checkpoints are only taken inside an entry", "statement": "Every checkpoint handed to the save consumer by the tar extractor names the entry being extracted and the tar position that matches its WriteOffset; save requests answered while reading headers are dropped and produce no checkpoint.", "quantifier": "every tar stream and save schedule", "why_tests_cant": "all coincidences of header reads and saves", "anchors": ["tarextractor/tarextractor.go: OnSave"]}
{"id": "C50", "title": "Extraction result statistics are exact", "statement": "ExtractorResult.Size() is the sum of the entries' uncompressed sizes and Stats counts each entry in exactly one of files, directories, symlinks (for known kinds).", "quantifier": "every entry list", "why_tests_cant": "all lists", "anchors": ["extractor.go: ExtractorResult"]}
{"id": "C51", "title": "NopSink and ignored writers accept everything and do nothing", "statement": "NopSink operations always succeed, its writers report every byte as written.", "quantifier": "every operation sequence", "why_tests_cant": "all sequences", "anchors": ["nop_sink.go"]}
{"id": "C52", "title": "checker.Writer accepts exactly the reference bytes", "statement": "A write to checker.Writer succeeds iff the data equals the reference at the current offset; the offset advances by the number of matching bytes; out-of-range writes and seeks are errors.", "quantifier": "every reference, offset and data", "why_tests_cant": "all data", "anchors": ["checker/writer.go"]}
{"id": "C53", "title": "checker.Sink.Validate is sound", "statement": "If Validate returns nil after an extraction, every expected entry was extracted and every expected file byte was written with the expected value.", "quantifier": "every history of sink calls", "why_tests_cant": "all histories of writes", "anchors": ["checker/sink.go: Validate, withItem"]}
{"id": "C54", "title": "semirandom produces exactly the requested bytes", "statement": "semirandom.Write with a well-behaved writer that returns nil has written exactly length bytes, and for the same seed the output for a smaller length is a prefix of that for a larger one.", "quantifier": "every length and every random number sequence", "why_tests_cant": "all lengths and seeds", "anchors": ["semirandom/semirandom.go"]}
{"id": "C55", "title": "Sections of one source can be read independently", "statement": "Section(start, size) of a source delivers the window of the data it was made for, whatever is done with other sections of the same source in between.", "quantifier": "every number of sections and every interleaving of Resume and Read on them", "why_tests_cant": "all interleavings", "anchors": ["seeksource/seeksource.go: Section, Resume, Read"]}
{"id": "C56", "title": "Tar: a checkpoint object that went through a Resume restarts from scratch", "statement": "Once Resume(c, sink) of the tar extractor has returned without error, or was stopped by the save consumer, the checkpoint object c the caller passed holds no position any more: Resume with it (or with what was made of it) extracts the whole archive from the beginning and the sink ends up with exactly the archive.", "quantifier": "every archive, source, consumer and history", "why_tests_cant": "all histories", "anchors": ["tarextractor/tarextractor.go: Resume"]}
{"id": "C57", "title": "Tar: success means the whole compressed stream was read and intact", "statement": "If Resume of a tar extractor over a compressed source returns without error, the compressed stream was intact to its end (its trailing checksum included).", "quantifier": "every stream", "why_tests_cant": "all damage to all streams", "anchors": ["tarextractor/tarextractor.go: Resume"]}
{"id": "C58", "title": "Tar: progress stays within [0,1]", "statement": "Every value reported to the progress listener by a tar extraction lies between 0 and 1.", "quantifier": "every archive, source and history of stops and resumes", "why_tests_cant": "all histories", "anchors": ["tarextractor/tarextractor.go: Resume"]}
{"id": "C59", "title": "checker.Sink accepts a correct extraction", "statement": "If every expected entry is extracted, in any order and any number of times, directories with Mkdir, symlinks with Symlink and the expected target, files with a writer from offset 0 and one or more writes that make up the expected bytes, then every call succeeds and Validate returns nil. The same holds after Nuke, whatever was done with the sink before; and right after Nuke, Validate fails unless nothing is expected.", "quantifier": "every set of expected items, every order and every division into writes", "why_tests_cant": "all histories", "anchors": ["checker/sink.go", "checker/writer.go"]}
{"id": "C60", "title": "The test save consumer asks for a checkpoint when due", "statement": "ShouldSave of the consumer made by NewTestSaveConsumer answers true exactly if more than threshold bytes were reported since the last Save.", "quantifier": "every history of ShouldSave and Save", "why_tests_cant": "all histories", "anchors": ["checker/countersaveconsumer.go"]}
{"id": "C61", "title": "A stop request of the save consumer is honoured", "statement": "If the save consumer answers AfterSaveStop to a checkpoint during Resume of the zip or tar extractor, then Save is not called again, nothing more happens to the sink than the write of the chunk being read (and the close of its writer), and Resume returns an error; and Resume returns ErrStop only if the last Save was answered with stop.", "quantifier": "every archive, sink, source behaviour, save consumer, checkpoint and point of stopping", "why_tests_cant": "all schedules of Save and all stopping points", "anchors": ["zipextractor/zipextractor.go: Resume", "tarextractor/tarextractor.go: Resume", "extractor.go: AfterSaveStop, ErrStop", "copier.go: Do"]}
{"id": "C62", "title": "An error of Save is not lost", "statement": "If Save of the consumer returns an error during Resume of the zip or tar extractor, Resume returns an error (and Save is not called again).", "quantifier": "every archive, sink, source behaviour, save consumer and checkpoint", "why_tests_cant": "all points at which Save may fail", "anchors": ["zipextractor/zipextractor.go: Resume", "tarextractor/tarextractor.go: Resume", "seeksource/seeksource.go: Read", "flatesource/flatesource.go: Read"]}
{"id": "C63", "title": "Extractors use their sink as it demands", "statement": "During Resume of the zip or tar extractor: a writer is only used until the next GetWriter call or until it was closed, and closed at most once; Preallocate is only called before everything else, and only by zip and without checkpoint; the sink is never closed or nuked; tar leaves no writer open when it returns.", "quantifier": "every archive (also malformed), sink (also failing), source, save consumer and checkpoint (also forged)", "why_tests_cant": "all call sequences", "anchors": ["sink.go: Sink, EntryWriter", "zipextractor/zipextractor.go: Resume", "tarextractor/tarextractor.go: Resume"]}
{"id": "C64", "title": "Features tell the truth", "statement": "Tar reports block-level resume support exactly if its source does, and none otherwise; every source of the package does; an extractor that says it does not preallocate never calls Preallocate; zip, which says it does, has asked for every file of the archive, and nothing else, before it does anything else.", "quantifier": "every source stack, archive and run", "why_tests_cant": "all runs and nestings of sources", "anchors": ["tarextractor/tarextractor.go: Features", "zipextractor/zipextractor.go: Features, Resume", "seeksource/seeksource.go: Features", "countingsource/countingsource.go: Features"]}
{"id": "C65", "title": "Incomplete checkpoints are never resumed wrongly", "statement": "A checkpoint that comes back without the decompressor's state, without the checkpoint of its input, or without its own data is resumed no later than where it was taken, and delivers the right bytes from there (exactly where it was taken if the decompressor's state is there). An extractor given a checkpoint whose source checkpoint is lost or incomplete in that way discards what it already has, and still produces exactly the archive.", "quantifier": "every stack of sources, archive, checkpoint, way of losing a part of it, and history of runs", "why_tests_cant": "all ways and depths at which a nested checkpoint can be incomplete, at all points of all histories", "anchors": ["flatesource/flatesource.go: Resume", "gzipsource/gzipsource.go: Resume", "bzip2source/bzip2source.go: Resume", "source.go: DiscardByRead", "zipextractor/zipextractor.go: Resume", "tarextractor/tarextractor.go: Resume"]}
{"id": "C66", "title": "Stopping and resuming as often as one likes reaches the end", "statement": "The loop a user writes - Resume; while it returns ErrStop, Resume a new extractor with the last checkpoint passed to Save - ends, if nothing fails, however often the save consumer stops: after at most one resume per byte of the archive's content the last Resume returns the result, and the sink holds exactly the archive. Whatever fails, a successful last Resume means that, and there is no panic.", "quantifier": "every archive, sink, pattern of stops, behaviour of the readers in each run", "why_tests_cant": "every stopping pattern, of any length; termination", "anchors": ["checker/extractortester.go: RunExtractorText", "zipextractor/zipextractor.go: Resume", "tarextractor/tarextractor.go: Resume", "extractor.go: ErrStop"]}
{"id": "C67", "title": "Resume from within Save is transparent", "statement": "A client may call Resume, with the checkpoint it was just given, on the same source object from within Save (as checker.RunSourceTest does): Resume returns the offset of the checkpoint, which is the client's position, and Read and all later Reads deliver the same bytes as without it.", "quantifier": "every stack of sources over every data, storage behaviour, history of the object, and every choice of the checkpoints at which it is done", "why_tests_cant": "re-entrancy at all points of all histories", "anchors": ["seeksource/seeksource.go: Read, handleSave, Resume", "flatesource/flatesource.go: Read, Resume", "checker/sourcetester.go: RunSourceTest"]}
{"id": "C68", "title": "The source tester passes exactly the correct sources", "statement": "checker.RunSourceTest neither blames a source that delivers exactly the reference (if it is long enough for a checkpoint and not so long that there are too many), nor passes one that does not.", "quantifier": "every stack of sources, data, reference and storage behaviour", "why_tests_cant": "all sources and references", "anchors": ["checker/sourcetester.go: RunSourceTest", "checker/writer.go: Write, Seek"]}
{"id": "C69", "title": "Never more checkpoints than requests", "statement": "At any time of its life a source of any kind has passed at most as many checkpoints to Save as WantSave was called; without WantSave there is none.", "quantifier": "every stack of sources, decompressor, data (also damaged), storage behaviour, and every sequence of calls with any arguments (also forged checkpoints, failing Resumes)", "why_tests_cant": "all histories of calls", "anchors": ["seeksource/seeksource.go: WantSave, handleSave", "flatesource/flatesource.go: SetSourceSaveConsumer, WantSave, Read", "gzipsource/gzipsource.go", "bzip2source/bzip2source.go", "brotlisource/brotlisource.go"]}
{"id": "C70", "title": "Extractors only save on demand", "statement": "At any time of a Resume that returns, the extractor has called Save at most as often as ShouldSave had answered true before; a save consumer that never answers true (NopSaveConsumer) never gets a checkpoint.", "quantifier": "every archive (also damaged or forged), sink, consumer, checkpoint, storage behaviour; every prefix of the calls", "why_tests_cant": "all interleavings of the consumer's two methods", "anchors": ["extractor.go: SaveConsumer, NopSaveConsumer", "copy.go: Do", "zipextractor/zipextractor.go: Resume", "tarextractor/tarextractor.go: Resume"]}
{"id": "C71", "title": "ShouldSave learns of every byte", "statement": "As its documentation says, the arguments of ShouldSave are the numbers of bytes extracted since the last call: altogether, in a successful Resume, the number of bytes handed to the sink. Never more than that, and at most 32 KiB at a time.", "quantifier": "every archive, sink, consumer, checkpoint, storage behaviour", "why_tests_cant": "sums over runs of unbounded length", "anchors": ["extractor.go: SaveConsumer", "copy.go: Do", "zipextractor/zipextractor.go: Resume", "tarextractor/tarextractor.go: Resume"]}
{"id": "C72", "title": "Checkpoints of a run never go backwards", "statement": "The checkpoints that one call of Resume passes to SaveConsumer.Save are, in that order, ordered by EntryIndex and then by Entry.WriteOffset, and (zip, if declared sizes are right) their Progress does not decrease; none is before the checkpoint that Resume was called with, and if that one came from Save each of them is past it: a user who only keeps the latest checkpoint never loses ground, and a resumed run that saves again has got further.", "quantifier": "all archives, save consumers, sinks, histories of interrupted runs and checkpoints", "why_tests_cant": "depends on where the decompressor allows saving, on the history of resumes and on the interleaving of requests, saves and writes", "anchors": ["extractor.go:SaveConsumer", "zipextractor/zipextractor.go:Resume", "tarextractor/tarextractor.go:Resume", "copy.go:Do"]}
{"id": "C73", "title": "Parent folders", "statement": "FolderSink always creates the necessary parent folders, with mode 0755: after a Mkdir, Symlink, GetWriter or Preallocate that succeeded, everything above the entry's place is a folder; those that were there keep their mode, the others have been created with 0755. No call ever makes a folder with any other mode or changes that of an existing one.", "quantifier": "all entries, destinations, file systems, system call failures, histories of calls", "why_tests_cant": "depends on which parents are missing, on the umask and on where system calls fail", "anchors": ["README.md: FolderSink", "folder_sink.go: Mkdir, createFile, Symlink, LuckyMode, DirMode"]}
{"id": "C74", "title": "Preallocate truncates, GetWriter does not", "statement": "As the README says, FolderSink truncates a file to entry.UncompressedSize when Preallocate is called (so that an older, longer file has that size), but not when GetWriter is called.", "quantifier": "all entries and file systems", "why_tests_cant": "depends on the sizes of what is there already", "anchors": ["README.md: FolderSink", "folder_sink.go: Preallocate, GetWriter"]}
{"id": "C75", "title": "File sources", "statement": "filesource.Open, if it succeeds, gives a source that can be read at once and delivers exactly the bytes of the file, io.EOF after the last one; OpenPaused gives one that needs Resume(nil) first (reading before is ErrUninitializedSource) and is then the same. If Open fails nothing stays open; Close closes this file and no other. Failing system calls give errors, never a stream that seems to end early.", "quantifier": "all files, read and seek behaviours, failures", "why_tests_cant": "depends on which system call fails, and on chunking", "anchors": ["filesource/filesource.go: Open, OpenPaused, Close", "seeksource/seeksource.go: FromFile"]}
{"id": "C76", "title": "Symlinks are text files on Windows", "statement": "On Windows, FolderSink.Symlink on an entry that is being written from the start makes a regular file at the entry's place, with exactly the link target as its content, whatever the target is; an existing file or symlink there is replaced, nothing else is changed except that missing parent folders are created, and the writer used is closed again. It succeeds if no system call fails and no folder is in the way.", "quantifier": "all entries, targets, file systems, system call failures", "why_tests_cant": "depends on what is at the entry's place and on where system calls fail", "anchors": ["README.md: FolderSink", "folder_sink.go: Symlink (onWindows), GetWriter, createFile"]}
{"id": "C77", "title": "The extractor test accepts correct extractors", "statement": "checker.RunExtractorText passes for a correct extractor: if the Items of the checker.Sink are the entries of the archive, extraction into that sink succeeds whatever checkpoints the save consumer stops at, resuming each time with a new extractor from the checkpoint kept, and Validate then returns nil (as long as no more resumes are needed than the test allows). Whenever such a run ends in success, also after I/O failures, Validate returns nil.", "quantifier": "all archives, save consumers, patterns of stops, chunkings, orders of Items", "why_tests_cant": "the stops, the sizes and the save points are unbounded, and the sink's state is shared by all runs", "anchors": ["checker/extractortester.go: RunExtractorText", "checker/sink.go: Validate, GetWriter, Mkdir, Symlink", "checker/writer.go: Write, Seek", "zipextractor/zipextractor.go: Resume", "tarextractor/tarextractor.go: Resume"]}
{"id": "C78", "title": "Keeping the checkpoint object itself", "statement": "A save consumer may keep the *ExtractorCheckpoint it is given instead of encoding it: when Resume has returned (done, stopped or failed), calling Resume with that very object on a new extractor over the same destination gives the same contents as an uninterrupted extraction, and (after a stop) succeeds if nothing fails any more.", "quantifier": "all archives, sinks, save consumers, histories, ways in which the run ended", "why_tests_cant": "the object is shared with the extractor, which goes on modifying it after Save has returned; depends on where the run ends", "anchors": ["extractor.go: SaveConsumer, ExtractorCheckpoint", "zipextractor/zipextractor.go: Resume", "tarextractor/tarextractor.go: Resume"]}
{"id": "C79", "title": "One extractor or source for several calls of Resume", "statement": "Resume may be called again on an extractor, or another extractor be made with its source, after an earlier call has stopped, failed or finished: a call that then succeeds has extracted everything exactly; it does succeed if nothing fails; if a run is stopped at a checkpoint, the checkpoint is further on than the one resumed from, so that stopping and resuming gets to the end; and every checkpoint given to the save consumer can be resumed from.", "quantifier": "all archives, stacks of sources, sinks, histories of calls on one source, save consumers", "why_tests_cant": "depends on what earlier calls have left in the source: its position, its pending save request, its save consumer", "anchors": ["extractor.go: Extractor", "tarextractor/tarextractor.go: Resume, New", "source.go: Source, DiscardByRead", "seeksource/seeksource.go: Resume, WantSave"]}
{"id": "C80", "title": "The test archives are sound", "statement": "Whatever the random numbers, MakeTestSinkAdvanced(n) makes n items, each under a key equal to its path, paths without slashes and backslashes, directories and files only (the items it names symlinks are directories), with UncompressedSize the length of the data; and the archive that MakeZip or MakeTar writes from any checker.Sink, in whatever order Go iterates over its map, has one entry per item, files alternately deflated and stored, and RunExtractorText over a correct archive library passes on it, for every shouldSave, unless more resumes are needed than allowed.", "quantifier": "all random number generators, numbers of entries, sinks, map iteration orders, save consumers, stacks of sources below the tar extractor", "why_tests_cant": "map iteration order and random numbers differ from what one test run sees", "anchors": ["checker/maketestsink.go: MakeTestSinkAdvanced", "checker/makezip.go: MakeZip", "checker/maketar.go: MakeTar", "checker/extractortester.go: RunExtractorText"]}
{"id": "C81", "title": "Copying a checkpoint by assignment", "statement": "A save consumer may copy the checkpoint it is given by assignment (cp := *checkpoint), sharing Entry and Data with the extractor, instead of encoding it: when Resume has returned (done, stopped, failed or killed), calling Resume with the copy on a new extractor over the same destination gives the same contents and the same result as an uninterrupted extraction, also if several such copies are kept and resumed from one after the other.", "quantifier": "all archives, sinks, save consumers, histories, ways in which the run ended, numbers of copies", "why_tests_cant": "the shared objects go on changing after Save has returned; depends on where each run ends", "anchors": ["extractor.go: SaveConsumer, ExtractorCheckpoint", "zipextractor/zipextractor.go: Resume", "tarextractor/tarextractor.go: Resume, TarExtractorState", "folder_sink.go: entryWriter.Write"]}
{"id": "C82", "title": "Checkpoints survive encoding/gob", "statement": "Every checkpoint that sources and extractors emit can be encoded with encoding/gob (README: 'guaranteed to be encodable'), by any program that links the packages involved, and decoding it in another such program gives the same checkpoint: source.Resume behaves exactly as with the original, and an extraction resumed from the decoded checkpoint gives the same contents and result as an uninterrupted one. In particular nothing that Resume depends on is lost because gob leaves out zero values, and every dynamic type that can occur in a Data field is registered.", "quantifier": "all stacks of sources, all checkpoints, archives, sinks, histories, pairs of programs (sets of linked packages)", "why_tests_cant": "quantifies over all checkpoint contents, including nested and zero-valued ones, and over the programs that store and load", "anchors": ["source.go: SourceCheckpoint, init", "extractor.go: ExtractorCheckpoint, init", "flatesource/flatesource.go: FlateSourceCheckpoint, init", "gzipsource/gzipsource.go: GzipSourceCheckpoint, init", "bzip2source/bzip2source.go: Bzip2SourceCheckpoint, init", "brotlisource/brotlisource.go: BrotliSourceCheckpoint, init", "tarextractor/tarextractor.go: TarExtractorState, init, Resume", "checker/extractortester.go: roundtripEThroughGob", "checker/sourcetester.go: roundtripThroughGob"]}
{"id": "C83", "title": "Offset 0 and nil are the same place", "statement": "source.go documents a checkpoint's Offset as non-zero, 'as the checkpoint for offset 0 is simply nil': no source emits a checkpoint whose Offset is 0. Where that fails, such a checkpoint is emitted only before the first byte of the stream has been delivered, and Resume with it does what Resume(nil) does: it returns 0 and delivers the whole stream.", "quantifier": "all stacks of sources, files, readers, histories of Read, ReadByte, WantSave and Resume, checkpoints", "why_tests_cant": "depends on when WantSave is called and on where the decompressor can be saved", "anchors": ["source.go: SourceCheckpoint, Source.Resume", "seeksource/seeksource.go: Read, Resume", "flatesource/flatesource.go: Read, Resume"]}
{"id": "C84", "title": "The features string tells extractors apart", "statement": "Two ExtractorFeatures have the same String() exactly if they are equal (name, resume support, preallocation, random access, features of the source), if no name contains a colon; and so for savior's own extractors. ResumeSupport.String and EntryKind.String give different names to all known values, and unknown values a name no known value has.", "quantifier": "every pair of features, levels and kinds", "why_tests_cant": "all names and combinations", "anchors": ["extractor.go: ExtractorFeatures.String, ResumeSupport.String", "sink.go: EntryKind.String", "tarextractor/tarextractor.go: Features", "zipextractor/zipextractor.go: Features"]}
{"id": "C85", "title": "What the test compressors produce, the sources give back", "statement": "GzipCompress, FlateCompress, Bzip2Compress and BrotliCompress return an error exactly if creating, writing or closing the compressor (or running bzip2) failed, the first such error, and then no data. Otherwise a source of the matching package over the returned bytes delivers exactly the input, then io.EOF, however it is read, saved and resumed; RunSourceTest with the input as reference does not fail on it, and a compressed tar archive made by MakeTar passes RunExtractorText with the tar extractor.", "quantifier": "all inputs, compressors, matching decompressors, histories of the sources", "why_tests_cant": "all inputs and histories; the tests use a few references and block sizes", "anchors": ["checker/compressors.go: GzipCompress, FlateCompress, Bzip2Compress, BrotliCompress", "checker/sourcetester.go: RunSourceTest"]}
