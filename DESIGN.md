# Formal model of itchio/savior in Rocq (Coq 8.16.1)

* `properties.jsonl` – the properties C01, C02, ... in English (generated by `tools/props.py`).
* `MANIFEST.json` – per property: status and theorems (generated by `tools/manifest.py` from `tools/claims.py`,
  which also generates `rocq/theories/Assumptions.v`: one `Print Assumptions` per theorem named there).
* `rocq/theories/` – the development. `seeded/LOG.jsonl` – wrong programs the theorems were tested against.

## 1. Layout of rocq/theories

| Kind | Files |
|---|---|
| Model of the code (every definition cites file and lines of /repo) | `Path` (path handling of folder_sink.go, zip name normalisation), `Source` (source.go), `Seek` (seeksource), `Counting` (countingsource), `Decomp` (flatesource, gzipsource, bzip2source, brotlisource), `FileSource` (filesource), `Copier` (copy.go), `Sink` (sink.go, types of extractor.go), `Zip`, `Shallow` (zipextractor), `FolderSink` (folder_sink.go), `Tar`, `Used` (tarextractor), `Misc` (nop_sink.go, ExtractorResult, checker/writer.go, checker/sink.go, checker/countersaveconsumer.go, semirandom), `Features`, `Names` (Features and String methods), `Again` (the stop/resume loop of checker/extractortester.go), `Generators` (checker/maketestsink.go, makezip.go, maketar.go), `Reenter` (Read with a consumer that calls Resume; checker/sourcetester.go), `GobCk` (checkpoints as Go values, the init functions that call gob.Register) and later additions listed in section 5, `Compress` (checker/compressors.go) |
| Model of the environment (not savior's code) | `Base` (bytes, Go errors, int64), `FS` (a Unix file system and package os), the `rstate`/`bstate` part of `Seek` (io.ReadSeeker, bufio.Reader), the `codec` part of `Decomp` (decompressors), the `tfmt`/`sr_*` part of `Tar`, `Used` (archive/tar), `Gob` (encoding/gob) |
| Specifications, independent of the model's helpers | `PathSpec`, `CodecSpec`, `Drive` (clients, histories of a source, stacks), `CopySpec`, `SinkSpec` (what storing an archive means), `LossSpec` (what a power failure must spare), `ZipSpec`, `NoteSpec` (recording sink), `FolderSpec`, `TarSpec`, `StopSpec`, `CallsSpec`, `SpoilSpec`, `SavesSpec`, `LaterSpec`, `UsedSpec`, `GeneratorsSpec`, `GobSpec` |
| Property theorems with examples | `Props_source`, `Props_source2..4` (C01–C18, C55), `Props_copy` (C19–C21), `Props_folder` (C22–C33), `Props_zip`, `Props_zip2` (C34–C43), `Props_zip_folder`, `Props_tar` (C44–C49, C57, C58), `Props_tar_folder`, `Props_misc` (C50–C52, C54), `Props_checker` (C53, C59, C60), `Props_stop` (C61, C62), `Props_stop2` (C56), `Props_calls` (C63, C64), `Props_spoil` (C65), `Props_again` (C66), `Props_reenter` (C67, C68), `Props_saves` (C69), `Props_saves2` (C70, C71), `Props_later`, `Props_later_tar` (C72), `Props_parents` (C73, C74), `Props_file` (C75), `Props_windows` (C76), `Props_checker2` (C77), `Props_kept`, `Props_kept_tar` (C78), `Props_used` (C79), `Props_generators` (C80), `Props_shallow`, `Props_shallow_tar`, `Props_shallow_tar2` (C81), `Props_gob`, `Props_gob_tar` (C82), `Props_zero` (C83), `Props_names` (C84), `Props_count` (C10), `Props_loss`, `Props_loss_tar` (C37, C47) and later additions listed in section 5, `Props_compress`, `Props_compress2` (C85) |
| Concrete archives, codecs, sinks for the examples | `ExCodec`, `ExSink`, `ExZip`, `ExFolder`, `ExTar` |
| Proofs | `Contract` and all `*_proofs`, `FolderLaws` |

Naming: theorem `Cnn_...` belongs to property Cnn. `_partial`: only part of the property (what is missing is said in the
manifest). `_refuted`: the property as stated is false of the code; the theorem exhibits a concrete witness. A property with a
`_refuted` theorem has status "partial"; its `_partial` theorems prove the property under the restriction that excludes the
witness. `Cnn_example` and the `Example`s next to a theorem show that a concrete non-trivial case meets its hypotheses.

## 2. Modelling decisions

* **State.** A Go object that is mutated is a record that is passed in and returned. Aliasing that matters is modelled: the
  extractors keep changing the checkpoint object they were given (C43, C48, C56), a `Section` shares its `io.ReadSeeker` (C55).
* **Results.** Errors are values (`gerr`; `errors.WithStack` is a constructor wrapper, so that `err == io.EOF` comparisons are
  modelled faithfully). Panics are explicit results. Unbounded loops take fuel, running out of it is the result `Hang`. In
  statements of the form "if it returned without error" this costs nothing; liveness theorems (`..._completes`) give a bound
  B and hold for *every* fuel above B, so fuel is not a bound on sizes; in the histories `zlife`/`tlife` running out of fuel
  stands for the process being killed at that point, so "for every fuel" means "for every crash point".
* **Callbacks.** `SourceSaveConsumer.Save` runs in the middle of `Read`; the model passes the callback and its state into
  `read`, so the order of effects in nested sources and extractors is the real one.
* **External code is a universally quantified parameter**: the decompressor (`codec`: any transducer with block boundaries, reading its input with ReadByte or io.ReadFull), the
  tar header parser (`tfmt`), the zip directory and its readers (`zfile`, `zio`), the save consumer (`saver`), the io.ReadSeeker (any
  chunking and any pattern of failures), the file system (any pattern of failures, partial writes, partial removals).
* **Sinks** are records of functions. Extractor theorems hold for every sink satisfying `sink_laws` (SinkSpec.v); `FolderLaws.v`
  proves these laws of the FolderSink model over the file system model, `CheckerLaws.v` of checker.Sink (a sink may restrict
  what contents it takes: `kl_fits`), and `Props_zip_folder.v`, `Props_tar_folder.v` compose them.
* **Histories.** `life`/`emitted` (sources), `zlife`/`zrun` (zip), `tlife`/`trun` (tar), `fdid` (folder sink) generate
  everything that can happen: any number of runs, each ending in any way (success, error, stop, kill after any number of sink
  operations or copied chunks), each resumed from any checkpoint that is still valid.

## 3. Simplifications (also said in the comments of the definitions)

* Unix only, except in `Windows.v` (`onWindows = false`, separator `/`). `filepath.Clean` etc. are given by their documented algorithm.
* `Progress` is an exact rational, None for NaN/Inf; float64 rounding is not modelled.
* `io.Reader`s never return `(0, nil)` for a non-empty buffer. `filepath.Abs`/`os.Getwd` do not fail.
* Decompressors read their input with `ReadByte` and `io.ReadFull`, no further than they need, and are deterministic (a Read whose short count
  changes what they do next is not modelled).
  `cd_eager`: whether io.EOF comes with the last data (both are covered). `cd_eager_save`: whether the ready-to-save signal comes
  with data. Source properties cover both; the extractor properties C34–C49 assume `cd_eager_save = false` (the last index of
  `stk_den` is `false` in `zm_ok` and `tarchive`). The assumption is necessary: with such a decompressor checkpoints are taken
  before the data of the same Read is written, and resuming loses it (theorem `C35_needs_lazy_saves`). The pointer to the decompressor's checkpoint inside
  a source checkpoint is not nil (a hand-made checkpoint with a nil pointer would panic).
* gob encoding of checkpoints is modelled as a deep copy at the time of `Save`; C82 shows that this is what storing and loading with encoding/gob gives (`Gob.v` models gob at the level of values and types: which values are errors, what is left out, registration, matching fields by name; not the bytes, nor that integers are limited to 64 bits). The object itself, as Resume leaves it, is
  `zo_obj`/`to_obj` (C78). Shallow copies of it (C81) are modelled by the final states of the objects they share: `Shallow.zip_objects`, `tar_resume_state`/`tar_shallow` in `Props_shallow_tar`; what a `SourceCheckpoint` points to (the state of a decompressor) is assumed not to be modified after the save.
* `archive/tar`: `SaverReader.Next` skips the rest of an entry and then runs an arbitrary parser; its `Save` and `Resume` do not
  fail; `sr.Save()` and `Progress()` inside OnSave see the state before the Read in progress. Each run of an extractor uses a
  new source object, except in `Used.v` (C79).
* FS: one process, no permission checks, no times, no disk space (running out is a fault), no set-uid bits; `os.Remove` only for
  non-directories (only called so); a power loss keeps for each file at least what was synced (`i_dur`).
* The consumer (`state.Consumer`) is only the list of progress values; log messages are not modelled.

**Not modelled:** `debug.go`, `Entry.String` and `ExtractorResult.Stats` (their wording, which is united's), the
archive writers behind `MakeZip` and `MakeTar` (specified in `GeneratorsSpec.v`), the compressing packages behind `checker/compressors.go` (specified in `Props_compress.v`), `eos.Open` inside `filesource.go`, `SetFlateThreshold` (stored, never used by
Resume), Windows (except the branch of Symlink: `Windows.v`), concurrency (no savior object is used concurrently; there are no goroutines in the package), logging.

## 4. Trusted base

* Coq 8.16.1's kernel (including its VM: examples are checked with `vm_compute`), `coqc`, and the statements themselves:
  the model definitions and the specification files listed above have to be read.
* No axioms: `Print Assumptions` reports "Closed under the global context" for every theorem in MANIFEST.json (`Assumptions.v`
  prints all of them during the build). The development declares no axiom, parameter, functor or module type, admits nothing,
  and switches no kernel check off. Libraries used: the Coq standard library only (`List`, `ZArith`, `QArith`, `Lia`, `Ascii`,
  `String`, `Sorted`, ...). A tool that lists the axioms of the whole loaded environment may show the parameters of the module type
  `Coq.ssr.ssrunder.Under_rel`, which belongs to the standard library's ssreflect plugin support; no theorem depends on them.
* That the model describes the Go code: checked by reading (line references at each definition); nothing was run.

## 5. Per property: what is modelled and how it is proved

C01 seek source delivers its bytes – `Seek.v`, any reader chunking/failures; invariant "file position and bufio buffer = slice of the data at offset" (`Seek_proofs`), lifted to operation sequences (`SeekTrace_proofs`).
C02 checkpoints resume where taken – same invariant after `Resume`.
C03 exactly one checkpoint per request – equality with the specification `expect_cks`.
C04 section isolation – nested sections, induction on depth; **refuted** when start+size overflows int64.
C05 stays inside its size – **refuted** for out-of-range checkpoint offsets (Read panics, ReadByte leaves the section); proved for in-range ones.
C06 no data before Resume – by cases, induction on the stack.
C07 negative offsets rejected – by cases.
C08 progress – rationals, invariant along any history; wrapped sources forward it.
C09, C10 counting source – simulation with the wrapped source; call log = specification `expect_log`.
C11 DiscardByRead – on any lawful source (`Contract.v`), hence any stack.
C12, C13 saving invisible, checkpoints resume – `Decomp.v`: the contract `laws` holds for seek sources and is preserved by a decompressing layer (induction over the stack); histories `life`/`emitted`.
C14 unusable checkpoints – the fallback branch of Resume on any stack.
C15 ReadByte – **refuted** twice (two saves in one ReadByte; EOF with last byte); proved without empty blocks and eager EOF.
C16 damaged input – denotation of truncated input (`crun`) and C12.
C17 failing consumer reported – **refuted** for seek sources and ReadByte; proved for Read of decompressing sources.
C18 WantSave at any time – **refuted** before the first Resume of a gzip source (nil dereference while the header is read); proved afterwards.
C19–C21 copier – `Copier.v` over an arbitrary environment; the trace of calls is related to the delivered chunks.
C22, C25 paths – byte-string theorem on `dest_path`/`check_link` against component-wise specification (`PathSpec`); then all paths handed to the OS are logged and shown inside.
C23, C24 confinement – invariant on the file system tree over all operation histories; **C24 refuted** (chain of lexically fine symlinks), proved for plain targets.
C26–C31, C33 – writer/handle/inode invariants over all histories (`FolderOps_proofs`, `FolderMisc_proofs`); **C28, C33 refuted** in corner cases and proved outside them.
C32 Nuke – **refuted** for an empty Directory; proved otherwise.
C34–C36, C38, C40, C43 zip – invariant "the checkpoint is good for the sink's contents" preserved by every step, over every history `zlife`.
C37 zip power loss – **refuted** (finished files are not synced); proved if the loss spares finished files: power failures are steps of the histories (`ZlPower`, `ZlPowerAll`), `loss_spares` (LossSpec.v) says what they must spare, `Loss_proofs` that this keeps the invariant; in the folder version (`files_spared`, `folder_reboot` in Props_loss.v) names, folders and symlinks are assumed to survive.
C39 names – normalisation implies `dest_path` accepts and stays inside.
C41 support – no checkpoint is ever taken in an LZMA entry.
C42 progress – per run monotone, in [0,1].
C44–C45, C49 tar – as zip, with the layout `tlayout` of the stream; histories `tlife`.
C46 tar result – **refuted** (directories and symlinks missing); exact list of files proved.
C47 tar power loss – **refuted** (never syncs); proved if the loss spares the prefix and what was finished, as C37 (`TfPower`, `TfPowerAll`, Props_loss_tar.v).
C48 tar retry with the same object – **refuted**; proved when the object is still in step.
C56 tar objects that went through Resume – the object left behind has no position, and resuming it equals a fresh run.
C57 tar success means intact stream – **refuted** past the end marker; proved up to it.
C58 tar progress – from the source contract.
C50–C52, C54, C60 – direct induction. C53 checker soundness – **refuted** (holes), proved without holes. C59 – completeness of the checker, also after Nuke (`Props_checker_nuke`: invariant that no offset is negative).
C55 interleaved sections – **refuted** (documented limitation), proved when each session starts with Resume.
C61 stop requests – the calls the save consumer and sink see after a stop, for any sink; result is ErrStop.
C62 errors of Save – **refuted** for uncompressed data (seeksource drops them); proved for compressed data.
C63 sink use – every call sequence an extractor makes on a sink respects the documented protocol (`proper`).
C64 features – advertised support and preallocation equal what is observed.
C65 incomplete checkpoints – `SpoilSpec.v` says what may be lost of a checkpoint at any depth of a stack; by induction on the stack such a checkpoint "lands" between 0 and its offset (`Contract.v: lands`, `Spoil_proofs.v`); the histories `zlife`/`tlife` let the user hold such checkpoints at any time (`Props_spoil.v`).
C66 stop/resume loop – `Again.v` models the loop of `RunExtractorText`; a stopped run leaves a checkpoint whose source offset is strictly further on than the one it was resumed from (`ro_fwd` of `Zip_proofs.v`, `Tar_proofs.v`), so the loop ends; exactness by the invariant of the histories (`Again_proofs.v`, `Again2_proofs.v`, `Props_again.v`).
C67 Resume within Save – `Reenter.v` gives Read for a consumer that may change the source; `re_law` (`Reenter_proofs.v`) relates it to the laws of the plain Read; induction over the client's operations (`Props_reenter.v`).
C68 source tester – `run_source_test` in `Reenter.v` models `RunSourceTest` (gob round trip = identity, `t.FailNow` = nothing happens afterwards). Completeness: induction on (resumes left, reads left), C69's budget bounds the number of resumes. Soundness only up to a prefix: refuted by an example, since the tester never checks that the stream is complete.
C69 saves ≤ requests – a budget `bl` (requests pending in any layer) that every operation respects, by induction over the stack (`Saves_proofs.v`, `Props_saves.v`); no hypothesis on codec, data or checkpoints.
C70 save on demand – `SavesSpec.v` wraps the consumer so that all its calls are recorded; invariant "saves + budget of the source (C69) ≤ yes answers" through copier and extractor loops (`Saves2_proofs.v`, `Props_saves2.v`); any archive, sink, consumer, checkpoint.
C71 ShouldSave's arguments – same walk, comparing with the recorded Write calls of the sink (`audited`, CallsSpec.v); **refuted** as documented (io.Copy entries; io.EOF with data), inequality always, equality otherwise.
C72 checkpoints of a run never go backwards – the sortedness invariant of the run proofs, restated on EntryIndex/WriteOffset (`LaterSpec.v`); strictness against the starting checkpoint from the source position (`ro_fwd`).
C73 parent folders – **refuted** as to the mode (createFile and Symlink pass LuckyMode 0777 to MkdirAll); otherwise from the lexical lemmas (`FSLex_proofs.v`) and an invariant over all calls, "every folder is an old one or has mode 0755/0777 less the umask" (`Parents_proofs.v`, `Props_parents.v`).
C74 who truncates – **refuted** as written in the README (two examples); the sizes that do result are C31 and C26 restated (`Props_parents.v`).
C75 file sources – `FileSource.v` models filesource.go over a host with numbered eos.Open calls (package eos not modelled); the stream itself is C01. **Refuted** for a failing Stat (silently empty) and a failing Seek in Open (file left open) (`Props_file.v`).

C76 symlinks on Windows – `Windows.v`: the onWindows branches of createFile and Symlink, on the file system of `FS.v`; from the lexical lemmas as C26 (`Windows_proofs.v`, `Props_windows.v`).
C77 the extractor test accepts correct extractors – checker.Sink satisfies `sink_laws` for contents that are prefixes of what it expects (`CheckerLaws.v`: its files read as the expected bytes where written, wrong ones elsewhere), so C66 applies and its conclusion implies Validate = nil (`Props_checker2.v`). Empty files: the extractors call Write at least once for everything copied through a source (`Touched_proofs.v`, an invariant on the test sink over all stops and resumes). **Refuted** for empty files copied with io.Copy (zip, neither stored nor deflated).
C78 keeping the checkpoint object itself – `zo_obj`/`to_obj` are the object behind `checkpoint` when Resume returns; in every ending it satisfies the invariant of resumable checkpoints (zip), or is spent (tar, stopped or done). **Refuted** for tar after a failed run.
C79 one source for several runs – `Used.v` models Resume with a source in any state, holding any save consumer; `ulife` in `UsedSpec.v` keeps the source from run to run. The invariants of `Tar_proofs.v` hold without the assumption that no save request is pending. **Refuted**: progress, and resumability of checkpoints that the closure of an earlier run hands out.
C80 test archives – `Generators.v` over any random number generator and any permutation of the map; the archive holds one member per item (induction over the iteration order), so C77 applies. The external writers are assumed to be read back faithfully (`GeneratorsSpec.v`).
C81 shallow copies of checkpoints – zip: the Entry object of a checkpoint ends at a position that is not behind and that the sink has the bytes for, or its entry is complete (`Shallow_proofs`: induction over the loop, on top of the invariant of `Zip_proofs`), and the source's part may lag behind as after C43; part of the histories `zlife`. **Refuted** for tar, by a plain stopped run; proved for tar if no byte of the entry was written since Save (`Props_shallow_tar2`: the loop keeps the last saved checkpoint equal to the object, up to its WriteOffset, or lists its entry).
C82 checkpoints survive gob – `GobCk.v` gives the Go value of every checkpoint and reads it back; `Gob_proofs.v` shows by composition (structs with distinct field names, pointers, interfaces, slices) that decoding inverts encoding, by induction on the stack of sources; the kinds of entries and the shape of the extractors' checkpoints come from the invariants of histories (`life_good`); resuming from what is loaded is an instance of C65 in which nothing is lost. `C82_package_needed`: registration is needed.
C83 offset 0 – `Props_zero.v`. **Refuted** as documented (`C83_offset_zero_refuted`); the two restricted theorems are instances of the session theorem of C12/C13 (`stack_session`).
C84 features string – `Names.v` has the String methods; the first colon ends the name, the rest is a finite case analysis; collisions with colons in names are exhibited.
C85 test compressors – `Compress.v` has the four functions over arbitrary compressing packages; if compressor and decompressor are inverse, the returned bytes denote the input (`stk_den`), and C12, C68 and C80 apply.
