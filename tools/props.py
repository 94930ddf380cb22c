#!/usr/bin/env python3
# generates /verif/properties.jsonl ; one property per P(...) call
import json
out=[]
def P(title, statement, quantifier, why, anchors):
    out.append(dict(id="C%02d"%(len(out)+1), title=title, statement=statement, quantifier=quantifier, why_tests_cant=why, anchors=anchors))

P("SeekSource delivers exactly its bytes, in order",
  "After Resume(nil), any sequence of Read and ReadByte calls on a seek source returns consecutive pieces of the underlying data starting at byte 0: nothing is skipped, repeated, reordered or invented; Tell() always equals the number of bytes delivered; io.EOF is returned only once Size() bytes have been delivered.",
  "every data content and length, every sequence of Read sizes / ReadByte / WantSave calls, every short-read and error pattern of the underlying ReadSeeker",
  "depends on all interleavings of buffer refills, bypass reads and short reads; tests only try one reader and a few buffer sizes",
  ["seeksource/seeksource.go: Read, ReadByte, Tell"])
P("SeekSource checkpoints resume at the byte where they were taken",
  "A checkpoint emitted by a seek source carries the number of bytes delivered before the call that emitted it; passing it to Resume on the same source or on a fresh source over the same data returns that offset and the following reads deliver exactly the bytes from that offset on.",
  "every data, every history of reads before and after the checkpoint, same or fresh source",
  "the crash/resume point can be any byte and any buffer state",
  ["seeksource/seeksource.go: Resume, handleSave"])
P("WantSave yields exactly one checkpoint, and only on request",
  "If a save consumer is registered, WantSave() causes exactly one checkpoint, at the next Read with a non-empty buffer (or ReadByte) that is not at the end of the source; without WantSave no checkpoint is ever emitted; several WantSave calls before that read coalesce into one.",
  "every sequence of operations on a seek source",
  "absence of spurious or duplicate checkpoints is a statement about all call sequences",
  ["seeksource/seeksource.go: WantSave, handleSave"])
P("Section isolation",
  "Section(start,size) succeeds exactly when start>=0, size>=0 and the window fits in the source; the returned source, once resumed, reads exactly the bytes [start,start+size) of its parent, sections of sections compose, and reads after any checkpoint it emitted stay inside the window.",
  "every data, all start/size values (as int64), every nesting depth and read schedule",
  "range over all integers including ones that overflow, all nestings",
  ["seeksource/seeksource.go: Section, Resume, Read, ReadByte"])
P("A source never reads beyond its size, even after a bad checkpoint",
  "Whatever checkpoint is given to Resume (including offsets larger than Size()), subsequent Read/ReadByte calls never return bytes from outside the source's [0,Size()) window and never panic.",
  "every checkpoint offset, every read",
  "adversarial / corrupted checkpoints are unbounded in number",
  ["seeksource/seeksource.go: Resume, Read, ReadByte"])
P("No data before Resume",
  "Reading from any source (seek, flate, gzip, bzip2, brotli) before Resume was called returns ErrUninitializedSource and no data, whatever else was called before.",
  "every source kind, every pre-Resume call sequence and buffer size",
  "all call sequences",
  ["seeksource/seeksource.go: Read, ReadByte", "flatesource/flatesource.go: Read", "gzipsource/gzipsource.go: Read", "bzip2source/bzip2source.go: Read", "brotlisource/brotlisource.go: Read"])
P("Negative checkpoint offsets are rejected",
  "Resume with a checkpoint whose Offset is negative returns an error, and leaves position and buffered data of a seek source as they were.",
  "every negative offset, every source state",
  "all int64 values and prior states",
  ["seeksource/seeksource.go: Resume"])
P("Source progress is a monotone fraction",
  "Progress() of a seek source lies in [0,1], is 0 after Resume(nil), reaches 1 at EOF of a non-empty source and never decreases between Resumes; decompressing and counting sources report the progress of what they wrap.",
  "every source state reachable with in-range checkpoints, every read sequence",
  "monotonicity along all executions",
  ["seeksource/seeksource.go: Progress", "flatesource/flatesource.go: Progress"])
P("CountingSource is transparent",
  "Wrapping a seek source in a counting source changes no result of Resume, Read, ReadByte, Tell, Size, Section or WantSave and no emitted checkpoint.",
  "every operation sequence",
  "observational equivalence over all histories",
  ["countingsource/countingsource.go"])
P("CountingSource callback reports true, increasing offsets",
  "Every callback value is the number of bytes delivered so far (for sections: relative to the original source, including nested sections), between Resumes the values never decrease, and the callback fires each time more than 128KiB have been read since the last callback.",
  "every read schedule, every section nesting",
  "all schedules of read sizes",
  ["countingsource/countingsource.go: Read, ReadByte, Section"])
P("DiscardByRead advances by exactly delta or fails",
  "DiscardByRead(source, delta) returning nil has consumed exactly delta bytes (none if delta<=0) and the next byte read is the one delta bytes further; if fewer than delta bytes are left it returns an error; it never consumes more than delta bytes.",
  "every source obeying the Source contract, every delta, every chunking",
  "all chunk patterns and deltas",
  ["source.go: DiscardByRead"])
P("Saving is invisible to the reader of a decompressing source",
  "For flate, gzip, bzip2 and brotli sources the concatenation of what Read returns is a prefix of the decompression of the underlying stream, whatever saves are requested and whenever the decompressor chooses to stop at a block boundary; the internal ready-to-save signal is never returned to the caller.",
  "every compressed stream and codec, every schedule of reads and save requests",
  "save points depend on block layout and timing of requests",
  ["flatesource/flatesource.go: Read", "gzipsource/gzipsource.go: Read", "bzip2source/bzip2source.go: Read", "brotlisource/brotlisource.go: Read"])
P("Decompressing sources resume exactly at their checkpoints",
  "Any checkpoint emitted by a flate/gzip/bzip2/brotli source, given to Resume on the same or on a fresh source over the same compressed data, returns the checkpoint's Offset and subsequent reads deliver exactly the decompressed bytes from that offset; this also holds for decompressors stacked on decompressors.",
  "every compressed stream, every checkpoint position, every history before and after, any stacking depth",
  "crash points and block layouts are unbounded",
  ["flatesource/flatesource.go: Resume, Read", "gzipsource/gzipsource.go: Resume, Read", "bzip2source/bzip2source.go: Resume, Read", "brotlisource/brotlisource.go: Resume, Read"])
P("Unusable checkpoints fall back to the start",
  "If a decompressing source is given a checkpoint that is not its own kind, or whose decompressor state cannot be restored, or that does not line up with the underlying source, Resume either reports an error or restarts from the beginning, returning offset 0 with the next reads delivering the stream from byte 0; it never delivers bytes from a wrong position. The offset returned by a successful Resume always equals the position of the next byte delivered.",
  "every checkpoint value, every stream",
  "arbitrary foreign or damaged checkpoints",
  ["flatesource/flatesource.go: Resume", "gzipsource/gzipsource.go: Resume", "bzip2source/bzip2source.go: Resume", "brotlisource/brotlisource.go: Resume"])
P("ReadByte agrees with Read and invents nothing",
  "A ReadByte call returning a nil error delivers the next byte of the stream, also when a save happens during the call; ReadByte never returns a stale or made-up byte with a nil error.",
  "every source, every position, every pending save request",
  "a save can coincide with any ReadByte",
  ["gzipsource/gzipsource.go: ReadByte", "flatesource/flatesource.go: ReadByte", "seeksource/seeksource.go: ReadByte"])
P("Damaged or truncated input is never reported as a clean end",
  "If the compressed stream ends early or is corrupt, the decompressing source delivers only bytes of the correct decoded prefix and finishes with an error, never with io.EOF.",
  "every truncation point and corruption, every read schedule",
  "all truncation points",
  ["flatesource/flatesource.go: Read", "gzipsource/gzipsource.go: Read", "bzip2source/bzip2source.go: Read", "brotlisource/brotlisource.go: Read"])
P("A failing save consumer is reported",
  "If the registered save consumer returns an error from Save, the read during which it was called returns that error (so that an extraction stops instead of continuing with unsaved state).",
  "every source kind, every moment of saving",
  "every coincidence of save and read kind",
  ["seeksource/seeksource.go: handleSave", "flatesource/flatesource.go: Read, ReadByte"])
P("WantSave at any time is safe",
  "Calling WantSave at any time, including before the first Resume, never makes a later Resume or Read panic.",
  "every call sequence over SetSourceSaveConsumer/WantSave/Resume/Read",
  "all call orders",
  ["gzipsource/gzipsource.go: SetSourceSaveConsumer, Resume", "flatesource/flatesource.go: SetSourceSaveConsumer, Resume"])
P("Copier copies everything up to EOF",
  "If Copier.Do returns nil without Stop having been called, the destination has received exactly the bytes the source delivered up to io.EOF, in order, each once; if the source fails, what it delivered before (and together with) the error has been written and the error is returned; a write error is returned and nothing more is read.",
  "every source behaviour (chunk sizes, data together with errors), every writer behaviour",
  "all chunkings and failure positions",
  ["copy.go: Copier.Do"])
P("Copier stops at the end of the current chunk",
  "If Stop is called while Do is running (for instance from the save consumer, inside Read), the chunk being read is still written, no further Read happens, and Do returns nil; a Stop issued before Do has no effect.",
  "every moment at which Stop is called",
  "all interleavings of saving and copying",
  ["copy.go: Copier.Do, Stop"])
P("Copier asks the save consumer exactly once per chunk",
  "ShouldSave is called exactly once per successfully copied chunk with that chunk's length, and WantSave is called exactly for the chunks for which it answered true; progress is emitted exactly when more than 512KiB were written since the last emission.",
  "every chunk sequence and consumer behaviour",
  "all chunk sequences",
  ["copy.go: Copier.Do"])
P("Escaping entries are rejected before touching the file system",
  "FolderSink.Mkdir, GetWriter, Preallocate and Symlink return ErrPathTraversal, with no file system change at all, exactly for entries whose CanonicalPath lexically leaves Directory; for all others (names the sink ignores excepted, for which nothing happens) every path handed to the operating system is Directory itself or lexically below it, or Directory's parent when a file entry denotes Directory itself.",
  "every Directory other than the root and every CanonicalPath byte string",
  "all strings, including odd uses of '.', '..', '//' and look-alike sibling prefixes",
  ["folder_sink.go: destPath, Mkdir, createFile, Symlink"])
P("Without symlinks nothing outside the destination changes",
  "If the destination contains no symlinks and the archive creates none, then no sequence of sink operations with any paths creates, removes or modifies anything outside Directory (except creating Directory's own missing parents).",
  "every operation sequence, every initial file system, every OS failure pattern",
  "all operation sequences and file systems",
  ["folder_sink.go: Mkdir, GetWriter, Preallocate, Symlink, Nuke"])
P("Archive symlinks cannot be used to escape the destination",
  "No sequence of sink operations starting from a destination without symlinks (archive entries may create symlinks) creates or modifies anything outside Directory.",
  "every sequence of entries",
  "attack chains combine several entries",
  ["folder_sink.go: Symlink, createFile"])
P("Symlink targets are validated",
  "Symlink with an absolute target, or a target that lexically resolves outside Directory, is rejected with ErrPathTraversal and no file system change; an accepted symlink is created with exactly the given target text, replacing whatever was at that path.",
  "every entry path and link target",
  "all strings",
  ["folder_sink.go: Symlink"])
P("Resuming a file keeps its prefix and nothing else",
  "After GetWriter(entry) succeeds and data is written, the file's content is: the first entry.WriteOffset bytes it had before (zero-filled if it was shorter), followed by exactly the bytes written since; entry.WriteOffset always equals the position of the next write.",
  "every previous content, every WriteOffset >= 0, every sequence of writes",
  "all prior contents and offsets",
  ["folder_sink.go: GetWriter, entryWriter.Write"])
P("A superseded or closed writer can no longer write",
  "After GetWriter has returned a new writer for an entry the sink does not ignore, or after Close/Nuke, Write and Sync on the older writer return os.ErrClosed and change neither any file nor its entry's WriteOffset; closing twice is harmless.",
  "every sequence of sink and writer operations",
  "all operation orders",
  ["folder_sink.go: GetWriter, Close, entryWriter"])
P("Sink fixes the type of the destination entry",
  "GetWriter, Mkdir and Symlink make the destination a file, directory or symlink whatever was there before: a symlink in the way of a file is replaced, never written through; a file or symlink in the way of a directory is replaced; anything in the way of a symlink is removed.",
  "every previous node at the destination",
  "all prior file system states",
  ["folder_sink.go: createFile, Mkdir, Symlink", "README.md: FolderSink"])
P("Extracted files stay writable",
  "Files are created or re-opened with permissions that include 0666 (modulo umask for new files) and all bits of entry.Mode's permissions.",
  "every entry mode and previous file mode",
  "all mode values",
  ["folder_sink.go: createFile, ModeMask"])
P("Ignored names leave no trace",
  "Entries whose base name is 'Icon\\r' cause no file system change through Mkdir, GetWriter (and writes to the returned writer), Preallocate or Symlink, and report success.",
  "every path with that base name, every operation",
  "all paths",
  ["folder_sink.go: shouldIgnorePath"])
P("Preallocate never loses data",
  "Preallocate of a file entry keeps the existing bytes, only appends zero bytes up to UncompressedSize, never shrinks the file, and a later GetWriter+write sequence yields the same file content as without Preallocate.",
  "every previous content and every size",
  "all contents and sizes",
  ["folder_sink.go: Preallocate, legacyPreallocate"])
P("Nuke removes exactly the destination",
  "After a successful Nuke nothing is left at or below Directory, everything outside is unchanged, and no writer obtained earlier can write any more.",
  "every file system and history",
  "all file systems",
  ["folder_sink.go: Nuke"])
P("At most one open file",
  "The sink keeps at most one file open between operations, whatever the sequence of operations and failures.",
  "every operation sequence and OS failure pattern",
  "all failure points",
  ["folder_sink.go: GetWriter, createFile"])
P("Zip: uninterrupted extraction is complete and exact",
  "If Resume(nil, sink) of a zip extractor returns without error, every directory, symlink and file entry has been handed to the sink in order, and each file contains exactly its decompressed data, whatever the save consumer asks for (as long as it does not stop).",
  "every archive (Store, Deflate, other methods), every save schedule",
  "all archives and schedules",
  ["zipextractor/zipextractor.go: Resume"])
P("Zip: stop and resume at any checkpoint gives the same result",
  "Stopping (AfterSaveStop), failing or crashing at any moment after a checkpoint was handed to the save consumer and then resuming from that checkpoint with a new extractor and the same sink contents finally produces exactly the same sink contents and result as an uninterrupted extraction, any number of times.",
  "every archive, every sequence of interruptions, every crash point (process crash)",
  "crash points and save points are unbounded",
  ["zipextractor/zipextractor.go: Resume", "copy.go"])
P("Zip: checkpoints describe data that is already on disk",
  "When the save consumer's Save is called by the zip extractor, the bytes of the current file below the checkpoint's Entry.WriteOffset have been synced, so that they survive a power loss.",
  "every archive and save schedule",
  "crash points",
  ["zipextractor/zipextractor.go: OnSave", "sink.go: EntryWriter"])
P("Zip: power loss after a checkpoint loses nothing",
  "After a power loss at any moment after Save returned, resuming from the checkpoint produces the complete, correct output.",
  "every archive, every crash point, every subset of unsynced data lost",
  "needs crash injection at every point",
  ["zipextractor/zipextractor.go: OnSave", "folder_sink.go: entryWriter.Close"])
P("Zip: encrypted entries are refused",
  "An archive with an encrypted entry makes Resume return ErrEncrypted when that entry is reached; no data of that entry is ever written.",
  "every archive and position of the encrypted entry",
  "all archives",
  ["zipextractor/zipextractor.go: Resume"])
P("Zip: normalised names are safe",
  "If NewWithParams with NormalizeBackslashes accepts an archive, every non-empty entry name is local and, when the archive needed rewriting, free of backslashes; names that stay non-local make it fail with ErrInsecurePath; accepted names never make a FolderSink report path traversal.",
  "every archive directory (all name byte strings)",
  "all strings",
  ["zipextractor/zipextractor.go: NewWithParams, normalizeBackslashNames", "folder_sink.go: destPath"])
P("Zip: result lists the whole archive",
  "A successful Resume returns one entry per archive member, in order, with the right kind and sizes, no matter how often extraction was interrupted; Entries() returns the same list.",
  "every archive, every interruption history",
  "all histories",
  ["zipextractor/zipextractor.go: Resume, Entries, zipFileEntry"])
P("Zip: advertised resume support is truthful",
  "Features reports block-level resume exactly when no entry uses LZMA, and entry-level otherwise; for entry-level archives checkpoints are never emitted in the middle of an entry that cannot be resumed.",
  "every archive",
  "all archives",
  ["zipextractor/zipextractor.go: NewWithParams, Resume, Features"])
P("Zip: progress stays in range and never jumps back",
  "Progress values reported by a zip extraction lie in [0,1] and do not decrease during a run when entry sizes are declared correctly, and a resumed run starts from the progress stored in the checkpoint or later.",
  "every archive and schedule",
  "all schedules",
  ["zipextractor/zipextractor.go: computeProgress"])
P("Zip: retry with the same checkpoint object after a failure",
  "If Resume(c, sink) fails with an I/O error, calling Resume again with the same in-memory checkpoint object (which the first call has modified) still produces the correct output.",
  "every archive, every failure point",
  "failure points are unbounded",
  ["zipextractor/zipextractor.go: Resume"])
P("Tar: uninterrupted extraction is complete and exact",
  "If Resume(nil, sink) of a tar extractor over any source returns without error, every directory, symlink and regular file of the tar stream has been handed to the sink in order with exactly its data; other entry types are skipped without disturbing later entries.",
  "every tar stream, every source obeying the contract (plain, gzip, bzip2, stacked), every save schedule without stop",
  "all streams and schedules",
  ["tarextractor/tarextractor.go: Resume"])
P("Tar: stop and resume at any checkpoint gives the same result",
  "Stopping, failing or crashing (process crash) at any moment after a checkpoint was persisted and resuming from it with a new source and extractor finally produces exactly the sink contents of an uninterrupted extraction, any number of times.",
  "every tar stream, every source kind, every interruption history",
  "crash points and save points are unbounded",
  ["tarextractor/tarextractor.go: Resume", "copy.go"])
P("Tar: result lists the complete contents",
  "A successful Resume returns the complete contents of the archive (all files, directories and symlinks), independent of interruptions.",
  "every tar stream and interruption history",
  "all histories",
  ["tarextractor/tarextractor.go: Resume", "README.md: Extractors"])
P("Tar: power loss after a checkpoint loses nothing",
  "After a power loss at any moment after Save returned, resuming a tar extraction from the checkpoint produces the complete, correct output.",
  "every tar stream, every crash point",
  "needs crash injection at every point",
  ["tarextractor/tarextractor.go: OnSave (FIXME: not syncing)"])
P("Tar: retry with the same checkpoint object after a failure",
  "If Resume(c, sink) fails with an I/O error, calling Resume again with the same in-memory checkpoint object still produces the correct output.",
  "every tar stream, every failure point",
  "failure points are unbounded",
  ["tarextractor/tarextractor.go: Resume"])
P("Tar: checkpoints are only taken inside an entry",
  "Every checkpoint handed to the save consumer by the tar extractor names the entry being extracted and the tar position that matches its WriteOffset; save requests answered while reading headers are dropped and produce no checkpoint.",
  "every tar stream and save schedule",
  "all coincidences of header reads and saves",
  ["tarextractor/tarextractor.go: OnSave"])
P("Extraction result statistics are exact",
  "ExtractorResult.Size() is the sum of the entries' uncompressed sizes and Stats counts each entry in exactly one of files, directories, symlinks (for known kinds).",
  "every entry list",
  "all lists",
  ["extractor.go: ExtractorResult"])
P("NopSink and ignored writers accept everything and do nothing",
  "NopSink operations always succeed, its writers report every byte as written.",
  "every operation sequence", "all sequences",
  ["nop_sink.go"])
P("checker.Writer accepts exactly the reference bytes",
  "A write to checker.Writer succeeds iff the data equals the reference at the current offset; the offset advances by the number of matching bytes; out-of-range writes and seeks are errors.",
  "every reference, offset and data", "all data",
  ["checker/writer.go"])
P("checker.Sink.Validate is sound",
  "If Validate returns nil after an extraction, every expected entry was extracted and every expected file byte was written with the expected value.",
  "every history of sink calls", "all histories of writes",
  ["checker/sink.go: Validate, withItem"])
P("semirandom produces exactly the requested bytes",
  "semirandom.Write with a well-behaved writer that returns nil has written exactly length bytes, and for the same seed the output for a smaller length is a prefix of that for a larger one.",
  "every length and every random number sequence", "all lengths and seeds",
  ["semirandom/semirandom.go"])
P("Sections of one source can be read independently",
  "Section(start, size) of a source delivers the window of the data it was made for, whatever is done with other sections of the same source in between.",
  "every number of sections and every interleaving of Resume and Read on them", "all interleavings",
  ["seeksource/seeksource.go: Section, Resume, Read"])
P("Tar: a checkpoint object that went through a Resume restarts from scratch",
  "Once Resume(c, sink) of the tar extractor has returned without error, or was stopped by the save consumer, the checkpoint object c the caller passed holds no position any more: Resume with it (or with what was made of it) extracts the whole archive from the beginning and the sink ends up with exactly the archive.",
  "every archive, source, consumer and history", "all histories",
  ["tarextractor/tarextractor.go: Resume"])
P("Tar: success means the whole compressed stream was read and intact",
  "If Resume of a tar extractor over a compressed source returns without error, the compressed stream was intact to its end (its trailing checksum included).",
  "every stream", "all damage to all streams",
  ["tarextractor/tarextractor.go: Resume"])
P("Tar: progress stays within [0,1]",
  "Every value reported to the progress listener by a tar extraction lies between 0 and 1.",
  "every archive, source and history of stops and resumes", "all histories",
  ["tarextractor/tarextractor.go: Resume"])
P("checker.Sink accepts a correct extraction",
  "If every expected entry is extracted, in any order and any number of times, directories with Mkdir, symlinks with Symlink and the expected target, files with a writer from offset 0 and one or more writes that make up the expected bytes, then every call succeeds and Validate returns nil. The same holds after Nuke, whatever was done with the sink before; and right after Nuke, Validate fails unless nothing is expected.",
  "every set of expected items, every order and every division into writes", "all histories",
  ["checker/sink.go", "checker/writer.go"])
P("The test save consumer asks for a checkpoint when due",
  "ShouldSave of the consumer made by NewTestSaveConsumer answers true exactly if more than threshold bytes were reported since the last Save.",
  "every history of ShouldSave and Save", "all histories",
  ["checker/countersaveconsumer.go"])
P("A stop request of the save consumer is honoured",
  "If the save consumer answers AfterSaveStop to a checkpoint during Resume of the zip or tar extractor, then Save is not called again, nothing more happens to the sink than the write of the chunk being read (and the close of its writer), and Resume returns an error; and Resume returns ErrStop only if the last Save was answered with stop.",
  "every archive, sink, source behaviour, save consumer, checkpoint and point of stopping", "all schedules of Save and all stopping points",
  ["zipextractor/zipextractor.go: Resume","tarextractor/tarextractor.go: Resume","extractor.go: AfterSaveStop, ErrStop","copier.go: Do"])
P("An error of Save is not lost",
  "If Save of the consumer returns an error during Resume of the zip or tar extractor, Resume returns an error (and Save is not called again).",
  "every archive, sink, source behaviour, save consumer and checkpoint", "all points at which Save may fail",
  ["zipextractor/zipextractor.go: Resume","tarextractor/tarextractor.go: Resume","seeksource/seeksource.go: Read","flatesource/flatesource.go: Read"])
P("Extractors use their sink as it demands",
  "During Resume of the zip or tar extractor: a writer is only used until the next GetWriter call or until it was closed, and closed at most once; Preallocate is only called before everything else, and only by zip and without checkpoint; the sink is never closed or nuked; tar leaves no writer open when it returns.",
  "every archive (also malformed), sink (also failing), source, save consumer and checkpoint (also forged)", "all call sequences",
  ["sink.go: Sink, EntryWriter","zipextractor/zipextractor.go: Resume","tarextractor/tarextractor.go: Resume"])
P("Features tell the truth",
  "Tar reports block-level resume support exactly if its source does, and none otherwise; every source of the package does; an extractor that says it does not preallocate never calls Preallocate; zip, which says it does, has asked for every file of the archive, and nothing else, before it does anything else.",
  "every source stack, archive and run", "all runs and nestings of sources",
  ["tarextractor/tarextractor.go: Features","zipextractor/zipextractor.go: Features, Resume","seeksource/seeksource.go: Features","countingsource/countingsource.go: Features"])
P("Incomplete checkpoints are never resumed wrongly",
  "A checkpoint that comes back without the decompressor's state, without the checkpoint of its input, or without its own data is resumed no later than where it was taken, and delivers the right bytes from there (exactly where it was taken if the decompressor's state is there). An extractor given a checkpoint whose source checkpoint is lost or incomplete in that way discards what it already has, and still produces exactly the archive.",
  "every stack of sources, archive, checkpoint, way of losing a part of it, and history of runs", "all ways and depths at which a nested checkpoint can be incomplete, at all points of all histories",
  ["flatesource/flatesource.go: Resume","gzipsource/gzipsource.go: Resume","bzip2source/bzip2source.go: Resume","source.go: DiscardByRead","zipextractor/zipextractor.go: Resume","tarextractor/tarextractor.go: Resume"])
P("Stopping and resuming as often as one likes reaches the end",
  "The loop a user writes - Resume; while it returns ErrStop, Resume a new extractor with the last checkpoint passed to Save - ends, if nothing fails, however often the save consumer stops: after at most one resume per byte of the archive's content the last Resume returns the result, and the sink holds exactly the archive. Whatever fails, a successful last Resume means that, and there is no panic.",
  "every archive, sink, pattern of stops, behaviour of the readers in each run", "every stopping pattern, of any length; termination",
  ["checker/extractortester.go: RunExtractorText","zipextractor/zipextractor.go: Resume","tarextractor/tarextractor.go: Resume","extractor.go: ErrStop"])
P("Resume from within Save is transparent",
  "A client may call Resume, with the checkpoint it was just given, on the same source object from within Save (as checker.RunSourceTest does): Resume returns the offset of the checkpoint, which is the client's position, and Read and all later Reads deliver the same bytes as without it.",
  "every stack of sources over every data, storage behaviour, history of the object, and every choice of the checkpoints at which it is done", "re-entrancy at all points of all histories",
  ["seeksource/seeksource.go: Read, handleSave, Resume","flatesource/flatesource.go: Read, Resume","checker/sourcetester.go: RunSourceTest"])
P("The source tester passes exactly the correct sources",
  "checker.RunSourceTest neither blames a source that delivers exactly the reference (if it is long enough for a checkpoint and not so long that there are too many), nor passes one that does not.",
  "every stack of sources, data, reference and storage behaviour", "all sources and references",
  ["checker/sourcetester.go: RunSourceTest","checker/writer.go: Write, Seek"])
P("Never more checkpoints than requests",
  "At any time of its life a source of any kind has passed at most as many checkpoints to Save as WantSave was called; without WantSave there is none.",
  "every stack of sources, decompressor, data (also damaged), storage behaviour, and every sequence of calls with any arguments (also forged checkpoints, failing Resumes)", "all histories of calls",
  ["seeksource/seeksource.go: WantSave, handleSave","flatesource/flatesource.go: SetSourceSaveConsumer, WantSave, Read","gzipsource/gzipsource.go","bzip2source/bzip2source.go","brotlisource/brotlisource.go"])
P("Extractors only save on demand",
  "At any time of a Resume that returns, the extractor has called Save at most as often as ShouldSave had answered true before; a save consumer that never answers true (NopSaveConsumer) never gets a checkpoint.",
  "every archive (also damaged or forged), sink, consumer, checkpoint, storage behaviour; every prefix of the calls", "all interleavings of the consumer's two methods",
  ["extractor.go: SaveConsumer, NopSaveConsumer","copy.go: Do","zipextractor/zipextractor.go: Resume","tarextractor/tarextractor.go: Resume"])
P("ShouldSave learns of every byte",
  "As its documentation says, the arguments of ShouldSave are the numbers of bytes extracted since the last call: altogether, in a successful Resume, the number of bytes handed to the sink. Never more than that, and at most 32 KiB at a time.",
  "every archive, sink, consumer, checkpoint, storage behaviour", "sums over runs of unbounded length",
  ["extractor.go: SaveConsumer","copy.go: Do","zipextractor/zipextractor.go: Resume","tarextractor/tarextractor.go: Resume"])
P("Checkpoints of a run never go backwards",
  "The checkpoints that one call of Resume passes to SaveConsumer.Save are, in that order, ordered by EntryIndex and then by Entry.WriteOffset, and (zip, if declared sizes are right) their Progress does not decrease; none is before the checkpoint that Resume was called with, and if that one came from Save each of them is past it: a user who only keeps the latest checkpoint never loses ground, and a resumed run that saves again has got further.",
  "all archives, save consumers, sinks, histories of interrupted runs and checkpoints",
  "depends on where the decompressor allows saving, on the history of resumes and on the interleaving of requests, saves and writes",
  ["extractor.go:SaveConsumer", "zipextractor/zipextractor.go:Resume", "tarextractor/tarextractor.go:Resume", "copy.go:Do"])
P("Parent folders",
  "FolderSink always creates the necessary parent folders, with mode 0755: after a Mkdir, Symlink, GetWriter or Preallocate that succeeded, everything above the entry's place is a folder; those that were there keep their mode, the others have been created with 0755. No call ever makes a folder with any other mode or changes that of an existing one.",
  "all entries, destinations, file systems, system call failures, histories of calls", "depends on which parents are missing, on the umask and on where system calls fail",
  ["README.md: FolderSink","folder_sink.go: Mkdir, createFile, Symlink, LuckyMode, DirMode"])
P("Preallocate truncates, GetWriter does not",
  "As the README says, FolderSink truncates a file to entry.UncompressedSize when Preallocate is called (so that an older, longer file has that size), but not when GetWriter is called.",
  "all entries and file systems", "depends on the sizes of what is there already",
  ["README.md: FolderSink","folder_sink.go: Preallocate, GetWriter"])
P("File sources",
  "filesource.Open, if it succeeds, gives a source that can be read at once and delivers exactly the bytes of the file, io.EOF after the last one; OpenPaused gives one that needs Resume(nil) first (reading before is ErrUninitializedSource) and is then the same. If Open fails nothing stays open; Close closes this file and no other. Failing system calls give errors, never a stream that seems to end early.",
  "all files, read and seek behaviours, failures", "depends on which system call fails, and on chunking",
  ["filesource/filesource.go: Open, OpenPaused, Close","seeksource/seeksource.go: FromFile"])
P("Symlinks are text files on Windows",
  "On Windows, FolderSink.Symlink on an entry that is being written from the start makes a regular file at the entry's place, with exactly the link target as its content, whatever the target is; an existing file or symlink there is replaced, nothing else is changed except that missing parent folders are created, and the writer used is closed again. It succeeds if no system call fails and no folder is in the way.",
  "all entries, targets, file systems, system call failures", "depends on what is at the entry's place and on where system calls fail",
  ["README.md: FolderSink","folder_sink.go: Symlink (onWindows), GetWriter, createFile"])
P("The extractor test accepts correct extractors",
  "checker.RunExtractorText passes for a correct extractor: if the Items of the checker.Sink are the entries of the archive, extraction into that sink succeeds whatever checkpoints the save consumer stops at, resuming each time with a new extractor from the checkpoint kept, and Validate then returns nil (as long as no more resumes are needed than the test allows). Whenever such a run ends in success, also after I/O failures, Validate returns nil.",
  "all archives, save consumers, patterns of stops, chunkings, orders of Items", "the stops, the sizes and the save points are unbounded, and the sink's state is shared by all runs",
  ["checker/extractortester.go: RunExtractorText","checker/sink.go: Validate, GetWriter, Mkdir, Symlink","checker/writer.go: Write, Seek","zipextractor/zipextractor.go: Resume","tarextractor/tarextractor.go: Resume"])
P("Keeping the checkpoint object itself",
  "A save consumer may keep the *ExtractorCheckpoint it is given instead of encoding it: when Resume has returned (done, stopped or failed), calling Resume with that very object on a new extractor over the same destination gives the same contents as an uninterrupted extraction, and (after a stop) succeeds if nothing fails any more.",
  "all archives, sinks, save consumers, histories, ways in which the run ended", "the object is shared with the extractor, which goes on modifying it after Save has returned; depends on where the run ends",
  ["extractor.go: SaveConsumer, ExtractorCheckpoint","zipextractor/zipextractor.go: Resume","tarextractor/tarextractor.go: Resume"])
P("One extractor or source for several calls of Resume",
  "Resume may be called again on an extractor, or another extractor be made with its source, after an earlier call has stopped, failed or finished: a call that then succeeds has extracted everything exactly; it does succeed if nothing fails; if a run is stopped at a checkpoint, the checkpoint is further on than the one resumed from, so that stopping and resuming gets to the end; and every checkpoint given to the save consumer can be resumed from.",
  "all archives, stacks of sources, sinks, histories of calls on one source, save consumers", "depends on what earlier calls have left in the source: its position, its pending save request, its save consumer",
  ["extractor.go: Extractor","tarextractor/tarextractor.go: Resume, New","source.go: Source, DiscardByRead","seeksource/seeksource.go: Resume, WantSave"])
P("The test archives are sound", 
  "Whatever the random numbers, MakeTestSinkAdvanced(n) makes n items, each under a key equal to its path, paths without slashes and backslashes, directories and files only (the items it names symlinks are directories), with UncompressedSize the length of the data; and the archive that MakeZip or MakeTar writes from any checker.Sink, in whatever order Go iterates over its map, has one entry per item, files alternately deflated and stored, and RunExtractorText over a correct archive library passes on it, for every shouldSave, unless more resumes are needed than allowed.",
  "all random number generators, numbers of entries, sinks, map iteration orders, save consumers, stacks of sources below the tar extractor", "map iteration order and random numbers differ from what one test run sees",
  ["checker/maketestsink.go: MakeTestSinkAdvanced","checker/makezip.go: MakeZip","checker/maketar.go: MakeTar","checker/extractortester.go: RunExtractorText"])
P("Copying a checkpoint by assignment",
  "A save consumer may copy the checkpoint it is given by assignment (cp := *checkpoint), sharing Entry and Data with the extractor, instead of encoding it: when Resume has returned (done, stopped, failed or killed), calling Resume with the copy on a new extractor over the same destination gives the same contents and the same result as an uninterrupted extraction, also if several such copies are kept and resumed from one after the other.",
  "all archives, sinks, save consumers, histories, ways in which the run ended, numbers of copies", "the shared objects go on changing after Save has returned; depends on where each run ends",
  ["extractor.go: SaveConsumer, ExtractorCheckpoint","zipextractor/zipextractor.go: Resume","tarextractor/tarextractor.go: Resume, TarExtractorState","folder_sink.go: entryWriter.Write"])
P("Checkpoints survive encoding/gob",
  "Every checkpoint that sources and extractors emit can be encoded with encoding/gob (README: 'guaranteed to be encodable'), by any program that links the packages involved, and decoding it in another such program gives the same checkpoint: source.Resume behaves exactly as with the original, and an extraction resumed from the decoded checkpoint gives the same contents and result as an uninterrupted one. In particular nothing that Resume depends on is lost because gob leaves out zero values, and every dynamic type that can occur in a Data field is registered.",
  "all stacks of sources, all checkpoints, archives, sinks, histories, pairs of programs (sets of linked packages)", "quantifies over all checkpoint contents, including nested and zero-valued ones, and over the programs that store and load",
  ["source.go: SourceCheckpoint, init","extractor.go: ExtractorCheckpoint, init","flatesource/flatesource.go: FlateSourceCheckpoint, init","gzipsource/gzipsource.go: GzipSourceCheckpoint, init","bzip2source/bzip2source.go: Bzip2SourceCheckpoint, init","brotlisource/brotlisource.go: BrotliSourceCheckpoint, init","tarextractor/tarextractor.go: TarExtractorState, init, Resume","checker/extractortester.go: roundtripEThroughGob","checker/sourcetester.go: roundtripThroughGob"])
P("Offset 0 and nil are the same place",
  "source.go documents a checkpoint's Offset as non-zero, 'as the checkpoint for offset 0 is simply nil': no source emits a checkpoint whose Offset is 0. Where that fails, such a checkpoint is emitted only before the first byte of the stream has been delivered, and Resume with it does what Resume(nil) does: it returns 0 and delivers the whole stream.",
  "all stacks of sources, files, readers, histories of Read, ReadByte, WantSave and Resume, checkpoints", "depends on when WantSave is called and on where the decompressor can be saved",
  ["source.go: SourceCheckpoint, Source.Resume","seeksource/seeksource.go: Read, Resume","flatesource/flatesource.go: Read, Resume"])
P("The features string tells extractors apart","Two ExtractorFeatures have the same String() exactly if they are equal (name, resume support, preallocation, random access, features of the source), if no name contains a colon; and so for savior's own extractors. ResumeSupport.String and EntryKind.String give different names to all known values, and unknown values a name no known value has.","every pair of features, levels and kinds","all names and combinations",["extractor.go: ExtractorFeatures.String, ResumeSupport.String","sink.go: EntryKind.String","tarextractor/tarextractor.go: Features","zipextractor/zipextractor.go: Features"])
P("What the test compressors produce, the sources give back","GzipCompress, FlateCompress, Bzip2Compress and BrotliCompress return an error exactly if creating, writing or closing the compressor (or running bzip2) failed, the first such error, and then no data. Otherwise a source of the matching package over the returned bytes delivers exactly the input, then io.EOF, however it is read, saved and resumed; RunSourceTest with the input as reference does not fail on it, and a compressed tar archive made by MakeTar passes RunExtractorText with the tar extractor.","all inputs, compressors, matching decompressors, histories of the sources","all inputs and histories; the tests use a few references and block sizes",["checker/compressors.go: GzipCompress, FlateCompress, Bzip2Compress, BrotliCompress","checker/sourcetester.go: RunSourceTest"])
open("/verif/properties.jsonl","w").write("".join(json.dumps(o)+"\n" for o in out))
print(len(out))
