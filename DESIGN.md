# Formal model of gribjump in Rocq/Coq 8.16.1

Source modelled: `/repo` (ecmwf/gribjump, C++ with Python and Rust front ends), read as text only.
Nothing is built or run; the model is a hand translation, function by function, and every definition
cites the file and lines it models.

## 1. Layout

| file | content |
|------|---------|
| `Base.v` | outcome type (`Ok` / `Throw` / `UB`), 64-bit arithmetic, list helpers used by the models |
| `Model*.v` | definitions only: translation of the code |
| `Spec*.v`  | definitions only: independent specifications used to state the properties |
| `Proofs*.v` | lemmas |
| `Properties*.v` | property theorems only, each closed by `exact`, each followed by `Print Assumptions`, with a concrete `Example` beside it |

Undefined behaviour is a separate outcome `UB` (out-of-bounds access, dereferencing past the end, use after free),
exceptions are `Throw e`. `size_t` arithmetic that can wrap on user input is written with explicit `mod 2^64`.
A theorem saying `f x = Ok y` therefore also says: no exception, no undefined behaviour.

## 2. What is modelled per property, and how it is proved

| id | model | proof |
|----|-------|-------|
| C01, C02 | bucket insertion (`Range.cc`), `NumericDecompressor::decode(ranges)` | inductive invariant over insertions; slice algebra |
| C03, C04 | `decode_array`, `unpack`, `SimpleDecompressor::decode` on byte lists | loop invariant: accumulator = bits read so far; refinement to the bit-list specification; widths 58..63 refuted |
| C05 | `codes_power`, scaling expressions over exact rationals and over IEEE binary64 (`SpecFloat`) | induction; CCSDS decimal scale refuted for every D <> 0 |
| C06 | `AecDecompressor::decode(range)`, `CcsdsDecompressor::decode(range)` with libaec as an oracle with a stated contract | window arithmetic |
| C07 | `GribJumpDataAccessor::read`, `MemoryAccessor::read` with wrap-around | arithmetic |
| C08-C15 | `Jumper.cc`, `SimpleJumper.cc`, `CcsdsJumper.cc` | interval/gap merge computes ranks; refutations for out-of-range ranges and constant fields with bitmap |
| C16 | `findGRIBOffsets` with arbitrary chunk size | loop invariant over chunks |
| C17 | `LRUCache` | refinement to a recency list; capacity 0 refuted (UB) |
| C18, C19 | `InfoCache::get` | invariant "every cached entry is true" under key injectivity; collision refuted |
| C20-C25 | `IndexFile`, `InfoCache::scan/insert/flush`, file system with crash points | token-level file model, every crash prefix |
| C26 | `JumpInfo` and subclasses `encode/decode` | round trip on token streams |
| C27-C30 | `WorkQueue` as a labelled transition system | invariants over all traces |
| C31-C35 | workers + task groups as an interleaving transition system | invariants, well-founded measure for liveness, reachable stuck state for the hang |
| C36-C44 | `Engine.cc`, `Lister.cc`, `Task.cc`, `LocalGribJump.cc`; FDB listing is an oracle | permutation arguments; refutations with concrete batches |
| C45 | read loop of `InefficientFileExtractionTask` | refuted for short reads; proved for single-piece reads |
| C46-C48, C62 | `Protocol.cc`, `Request.cc`, `RemoteGribJump.cc`, `GribJumpUser.cc` on token streams | round trips composed into sessions |
| C49-C51 | `Forwarder.cc` | partition lemmas |
| C52-C57 | `ExtractionIterator.h`, `gribjump_c.cc`, `pygribjump.py`, Rust request/bridge | refinement |
| C58, C59 | `InfoAggregator.cc`, `FDBPlugin.cc` | producer/consumer transition system |
| C60, C61 | `GribJump.cc`, `LocalGribJump.cc` | case analysis |
| C63-C66, C68 | `JumpInfo`/`CcsdsInfo` constructors, `InfoFactory.cc`, `InfoExtractor.cc`; eccodes and libaec are oracles with contracts | symbolic execution of the constructors; composition with C08/C09 |
| C69-C72, C75 | `InfoCache`/`IndexFile` used by several threads of several processes (`ModelThreads.v`): one file system of names and inodes, one step per file-system access or critical section | inductive invariant over all schedules (ghost: which file belongs to which data file, which files were published); witness schedules for the refutations; for C72 a measure (calls, files to flush, tokens to write, tokens to read) that every step lowers |
| C73, C74 | `Engine.cc`: the union request; `Engine::scan`, `Forwarder::scan` down to one call of the scanning function per file | the text is parsed back by a small reader (`SpecUnion.v`); sums and partitions |
| C76-C79 | `ToolUtils.cc`, `gribjump-extract.cc`, `gribjump-validate.cc`, `gribjump-scan-files.cc` (`ModelTools.v`); MARS language, eccodes and the file system are parameters | exact characterisations of the parser and of each tool |
| C80-C82 | `Config.{h,cc}`, `LibGribJump.cc`, `GribJumpFactory.cc`, constructors of `RemoteGribJump`, `InfoCache`, `WorkQueue` (`ModelConfig.v`); eckit's Resource/YAML are parameters | each accessor against a table written from the documentation; invariant over sequences of reads |
| C83-C85 | Rust `result.rs`, `error.rs`, `request.rs`, `handle.rs`, `gribjump_bridge.{h,cpp}` (`ModelRust.v`); which classes an exception is an instance of is a parameter | views against the result and, composed with C08/C09, the field; error variants against the exception class; requests field by field |
| C86 | `RemoteGribJump.cc`, `Request.cc`, `Forwarder.cc`, `LocalGribJump.cc`, `Engine.cc` composed (`SpecDeploy.v`; no new model) | a client, a front server and the servers that own the data, against the stored values |
| C87 | `LocalGribJump.cc`, `Engine.cc`, `ExtractionData.cc`, `Forwarder.cc` composed (`SpecPaths.v`; no new model) | path requests and direct extraction, local and through servers, against the stored values |
| C88, C89 | `Task.cc`, `WorkQueue.cc`, `Engine.cc`, `InfoCache.cc` composed (`SpecConcurrent.v`; no new model) | executions of `ModelTask.v` with the work of the engine's tasks, and with lookups answered by executions of `ModelThreads.v`, against the sequential engine and the stored values |
| C90, C91 | `Metrics.{h,cc}`, `GribJump.cc`, `Task.{h,cc}`, `Request.cc`, `GribJumpUser.cc`, `gribjump_c.cc`, `pygribjump.py` (`ModelContext.v`) | thread-local contexts over the executions of `ModelTask.v`; sets of metrics in the order of the code |
| C92, C93 | `LogRouter.cc`, `Task.cc` (`ModelLog.v`) | routing table; counters of a task group under its mutex |
| C94 | `gribjump_c.cc`, `pygribjump.py` (`ModelErrors.v`) | threads interleaved at entering and leaving the store to `LAST_ERROR_STR`, at taking the pointer and at reading through it |
| C99 | `world_of` of C67 and `py_extract` of C95 with `b64_arith` | right results of C67 and C95, point by point the error bound of C96 |
| C100 | the info cache (C18-C20) and the engine over it (C67); `SpecServe.v`: scan jobs as calls on the cache | each call keeps the records it finds; lookups of recorded offsets succeed without the data; the extraction is a function of the lookups |
| C101 | `ModelAxes.v`: `lister_axes`, `c_new_axes`, `py_axes`, `rust_axes`, over the accessors of `ModelApi.v` and the wire of `ModelRemote.v` | iteration orders are arbitrary permutations; each stage keeps keys and value sets; composition with C53 and C62 |
| C102 | `ModelInspect.v`: `info_equals` | case analysis over the fields; inversion of the builders; the round trip C26 |
| C103 | `ModelInspect.v`: `dump_tool`, `print_index`, `info_tool`, `scan_tool` | induction over the files; the loader of index files (C20); the crash model (C22) |
| C104 | `ModelClient.v`: `rs_fetch`, `rs_extract_mars`, `rs_extract_from_file`, `c_fetch`, `c_read`, over `ModelApi.v` and `ModelRust.v` | the loops visit each position of the source once; composition with C95, C53, C56 and C94 |
| C105 | `ModelForward.v` tasks run by `ModelTask.v`; `SpecBusy.v`: `prepared_forward`, `count_after` | servers own disjoint items, so their writes commute (as C88); additions modulo 2^64 commute |
| C106 | `ModelRemote.v`, `ModelProtocol.v`, `ModelForward.v`; `SpecHostile.v`: `lying_ranges`, `lying_reply`, `defined_site` | readers closed under composition that are undefined only on a kind of stream; C98 and `same_extraction` for what is executed |
| C107 | `ModelNotify.v` over `ModelTask.v`; `SpecNotify.v`: `seen_as`, `fruns` | simulation in both directions between the two transition systems; the measure of C32, twice, plus the statuses not yet stored |
| C108 | `ModelObjects.v`: `py_iter`, `gen_next`, `use_iter`, `dump_values`; `SpecObjects.v`: `yields`, `times` | invariant over the program: the C iterator stands after the results given, each generator counts its own |
| C109 | `ModelObjects.v`: `py_result`, `ask_result`; `SpecObjects.v`: `first_answer`, `missing_answers` | invariant on the two buffers |
| C110 | `ModelLife.v`: C objects, cffi owners, references, frames, collector; `SpecLife.v`: `careful`, `quiet` | invariant: what is reachable is live, owners are unique and live as long as what they own, generators never run out of shapes |
| C111 | `ModelShare.v`: the Arc, the mutex, threads, values with owners, views; `SpecShare.v`: `one_by_one`, `taken`, `call_steps` | invariant over all steps: counts, lock owner and phases agree; iterators are at the position of what was taken; views only on converted results |
| C112 | `ModelFetch.v`: PathExtractionRequest, extract_from_paths, extract_single, a C client; `SpecFetch.v`: `means`, `python_path_sees`, `c_path_sees`, `single_sees` | composition of the construction of requests (C54, C60), right answers (C87, C95) and the views (C55) |
| C113 | `SpecMany.v`: `together` (one machine holding the files of all servers), `right_answers` for fronts and busy machines; no new model | composition of C88/C106 (forwarding), C105 (busy machine), C89 (shared cache) with the users' theorems C95, C104, C112 |
| C114 | `ModelFactory.v`: singletons with their lifetimes, registration, static construction and reverse destruction, lookups, threads | invariant: the tables are those of the builders alive; the exit undoes the start step by step |
| C115 | `ModelLoad.v`: versions, modules as the names they bind, sys.modules with partly loaded modules, PatchedLib.__init__ | symbolic execution of the three modules from each state that failed imports can leave; padded lexicographic order |
| C97 | `extract` as a whole, with the undefined outcomes of every operation it uses (`SpecSafety.v`) | shape lemma for each decoder: right length or exception on arbitrary octets, including wrapped positions; the only remaining UB is the slice of the bitmap |
| C98 | engine, path requests, direct extraction; info cache and description of messages as in C67 | every UB of the engine traced back to one extraction; keys of groups are keys of items, groups are not empty, one info per offset (C19) |
| C96 | `codes_power` and the scaling expressions over IEEE binary64 (`SpecAccuracy.v`), composed with C66 | error analysis of rounding, multiplication, division and addition of `SpecFloat` (`ProofsRound*.v`); powers of two and ten computed for every exponent in range |
| C95 | `pygribjump.py` down to the stored values (`ModelUser.v`, composed with C56, C57, C67 and C86) | dict to text to canonical request to catalogue key; views of the results |
| C67 | the models of C08-C24, C36-C44 and C63 composed into one `world` (`SpecSystem.v`) instead of oracles | instantiation of the engine theorems with the cache theorems |
## 3. Trusted base

* The Coq 8.16.1 kernel (including `vm_compute`, used in examples, refutation witnesses and a few finite sweeps).
* Axioms: none. `Print Assumptions` reports "Closed under the global context" for every property theorem
  (section 7). `coqchk -o` on the whole development additionally lists seven entries
  `Coq.ssr.ssrunder.Under_rel.*`: parameters of a module type application inside the standard library's ssreflect
  files, loaded indirectly (via `Lia`); no theorem depends on them.
* The hand translation of C++/Python/Rust to Gallina. Each definition cites its source lines; the differences
  from the code are listed in the heading comment of each model file and in section 4.
* The behaviour of external libraries, listed in section 4.

## 4. Assumptions about what is not modelled

Each item is either an explicit hypothesis or parameter of the theorems (marked H), or a choice made in the
model (marked M), so that the theorems are about that choice.

Language and machine
* M `size_t` is 64 bits, `long` is 64 bits signed, casts between them are two's complement.
* M an allocation below 2^60 bytes succeeds, any other throws; a wrapped size is not special.
* M floating point: the decoders are generic in the arithmetic (`farith`). The scaling theorems use exact rationals;
  `b64_arith` is IEEE binary64 (`SpecFloat`: round to nearest even, no fused multiply-add, one NaN). C96 bounds the rounding error.
* M `std::sort` on items is an arbitrary function returning a sorted permutation (H where used); `std::lower_bound` on an
  unpartitioned sequence is UB; `std::unordered_map` iteration order is only used where the code's result does not
  depend on it (endpoint maps: order of insertion).
* M every exception is a `std::exception`; the text matters only where it is sent over the wire.
* M data races are not modelled beyond the interleavings of critical sections and atomic operations. Condition variables may wake up
  without a notification. The address of a destroyed `TaskGroup` is not reused. `executeImpl` ends (H in C32).

eckit
* M streams are lists of typed tokens. Reading with another type than written, or past the end, raises. `Stream::next`
  skips end-of-object tags and gives false at the end. `Reanimator::reanimate` gives null at the end. An exception written with
  `Stream << std::exception` surfaces at the peer's next read as an exception with the same text.
* H the stream operators of `eckit::URI` and `metkit::mars::MarsRequest` round-trip; `eckit::URI("file", u)` is `u` with its
  scheme replaced.
* M `StringTools::split` (Tokenizer) drops empty tokens. `PathName::extension`, `baseName` as written in `ModelIndex.v`;
  H `PathName::unique` returns a fresh path.
* M `FileHandle::read` is short only at the end of the file; a seek to a negative position fails.
* M rename(2) is atomic; "crash" means death of the process, not of the operating system; an append in progress may reach the
  file in part.
* M `eckit::Queue`: `emplace` asserts open and blocks while full; `pop` blocks while empty and open, returns -1 when closed and
  empty. `eckit::Regex` is an oracle: a text compiles or not, then matches or not.
* M `eckit::Resource` looks at the environment, then resources, then the default; `std::stoi`, `std::getline` in the C locale as in
  `ModelTools.v`; `CmdArgs` refuses an option that was not registered; `PathName() / x` is `/x`.
* M data files do not change while they are in use; index files may (C69-C72).
* M in C69-C72: a file is a list of tokens, one token reaches the file at a time, a reader takes one token at a time and may see
  part of a token that is being written. stdio buffers (a reader takes 4 KiB at a time, a writer sends such pieces) make fewer
  interleavings possible than the model; the boundary of a buffer can be anywhere in a record of a large file. `exists` and `fopen`
  are separate steps.
  `infomutex_` and `stageMutex_` are modelled as the code takes them: getCached, putCache, clear, insert are atomic, flush holds the lock.

libaec, eccodes, FDB, metkit
* H libaec: set up with flags, bit width, block size and interval length (`aec_params`), it decodes samples from a reference
  sample interval (contract `rsi_stream`/`valid_stream`); when it decodes a whole stream it returns the samples asked for and a
  sorted table of n/(rsi*block)+1 interval starts with which every part can be decoded again (`libaec_consistent`). `aec_decode_range`
  as in `ModelCcsds.v`. The machine is little-endian; the 32-bit members of `aec_stream` do not truncate.
* H eccodes: in the cache and engine theorems `data path offset` is the JumpInfo built from the message there. C63-C68 model how it
  is built; what remains is `grib_at`, which message eccodes reads at a position, and what it reports under each key (`reports`).
  eccodes searches forward for the next message; `grib_at` leaves open what it finds.
* H `FDB::list` answers with elements whose keys have distinct names, one element per field; `Key::get` raises SeriousBug for
  a missing keyword; futures are eventually fulfilled.
* H TCP delivers what was written.
* M numpy: `diff`, `where`, `split`, `cumsum` as exact integer functions; fixed-width index types are not modelled.

## 5. Findings

Places where the code, as modelled, violates a property. "T" is the theorem, or example, with the witness.

| property | finding | T |
|---|---|---|
| C03 | packed widths 59, 61, 62, 63: the 64-bit accumulator overflows and the top bits of samples are lost | `C03_refuted` |
| C05 | CCSDS decimal scaling computes `codes_power(D, -10)`, i.e. (-10)^D, instead of 10^(-D): wrong for every D <> 0 and non-zero value | `C05_refuted` |
| C07 | `GribJumpDataAccessor::read` converts size_t to signed offsets: offsets >= 2^63 pass the bound check (not reachable from the decoders) | `C07_refuted` and neighbours |
| C12 | ranges beyond the field: constant fields return values for any range, padding bits at the end of the data section are returned as values, bit positions wrap for huge offsets, ranges beyond the bitmap are out-of-bounds reads | `C12_refuted_*` |
| C13 | a range with begin > end passes the check and leads to undefined behaviour | `C13_refuted` |
| C14 | constant field with a bitmap: missing points are reported present | `C14_refuted` |
| C17 | cache capacity 0 is accepted by the configuration and makes the first `put` undefined | `C17_*` |
| C18 | the cache key is base name + offset without separator or directory: `a/f`,`b/f`, and `f1`+`23` vs `f12`+`3`, collide and return the other message's description | `C18_refuted` |
| C22 | a crash during an append leaves an index file no later process can load, or one with a null record that a later scan dereferences | `C22_refuted*` |
| C23 | scanning counts an offset twice if it is listed twice | `C23_refuted` |
| C24 | scan without merge loads the old index and its records win over the new ones | `C24_refuted` |
| C25 | `flush(false)` discards the records already in the file | `C25_refuted` |
| C33 | a failing task cancels its pending siblings, cancelled tasks are never counted, waiting hangs for ever | `C33_refuted` |
| C35 | an exception while scheduling destroys the group with tasks still queued: use after free | `C35_refuted` |
| C37 | canonicalisation of a request with repeated tokens is not idempotent (commas lost) | `C37_refuted` |
| C38, C39, C41 | `ignoreYearMonth` defaults to true and is sticky: once one request of a batch mentions year, month and date, later requests lose year and month | `C38_refuted`, `C39_refuted`, `C41_refuted*` |
| C40 | missing fields allowed and all missing: assertion failure instead of empty results | `C40_refuted` |
| C41 | key text comparison: a key that extends another by a character sorting before '=' is ordered differently by the request and by the listing | `C41_refuted*` |
| C43 | the remote-handle task never compares grid hashes | `C43_refuted` |
| C45 | a remote message arriving in two or more pieces: each is written at the start of the buffer | `C45_refuted` |
| C50 | equal paths on different hosts all go to the first one's server; a first request without host makes the whole batch local; equal path and offset on two hosts fail | `C50_refuted*` |
| C53 | the C mask accessor checks the size only after the copy: a too small buffer is overrun; the documented mask size is one word short/long for multiples of 64 | `C53_refuted*` |
| C57 | Rust offsets >= 2^63 become negative | example |
| C58 | a failed archive future ends the process (std::terminate); a concurrent scan can remove flushed records | `C58_failed_future_kills`, `C58_scan_race` |
| C59 | an empty selection selects nothing; a missing keyword raises; a malformed configuration is refused only for the first FDB, later ones use what was read | `C59_*` |
| C62 | after task errors the client leaves the reply unread; a server of another version leaves the request unread | `C62_*` |

| C64 | a data section cut off by the end of the file: the short read goes unnoticed and libaec decodes whatever the buffer contained, the table depends on it | `C64_refuted` |
| C65 | constant CCSDS field described from an in-memory message: the test for zero bits per value is missing, SeriousBug (reached only through `InfoExtractor::extract(const eckit::message::Message&)`) | `C65_refuted` |
| C69 | a flush that found no index file opens it with "w" although a scan has put one in place since: the scan's records are lost, and a lookup that is reading the file combines the offset of one record with the description of another: wrong values without error | `C69_refuted_*` |
| C70 | a lookup while another process flushes the same index file meets an empty or half-written file and raises although the data is there; a scan that meets a file ending after an offset stores a null record and dereferences it (UB) | `C70_refuted_*` |
| C71 | records inserted and flushed while another process scans the file are lost when the scan renames its file into place; of two scans at the same time one loses its records (a comment in `appendToFile` excludes concurrent writers from different processes) | `C71_refuted_*` |
| C74 | a client with `forwardScan` ignores the `byfiles` argument of `scan` (Engine.cc:260-268): only the listed fields are scanned, not the whole files | `C74_refuted_forwarded_byfiles` |
| C76 | the ranges parser accepts `10--20`, `-10-20`, `10-20x`; a ranges file that cannot be opened is taken as empty (`ifstream::bad()` is not set by a failed open) | `C76_refuted_*` |
| C77 | `gribjump-extract` indexes the request list with the result number: a request of several fields labels results with the wrong request and then reads beyond the list (UB); its options `--raw` and `--print` are pushed to a private member that hides the inherited one and are therefore refused | `C77_refuted_*` |
| C78 | `gribjump-scan-files --skipExisting` looks only for `<file>.gribjump`, not at the configured cache directory | `C78_refuted_skip_existing` |
| C79 | `gribjump-validate` reports every correct extraction with a missing point as a mismatch (NaN against 9999); ranges beyond the field read out of bounds | `C79_refuted_missing_points`, `C79_example` |
| C80 | `threads: 0` or negative is accepted: no worker is started and every extraction or scan waits for ever; `cache.size: 0` is accepted: the first insertion into the LRU cache is undefined | `C80_refuted_*` |
| C82 | `cache.enabled: false` returns early from the constructor with `shadowCache_ = false` and an empty directory: index files are still read and written, as `/<basename>.gribjump`, shared by all files of one base name; the comment in `Config.cc` documents the key as `enable`, which is not read | `C82_refuted_*` |
| C84 | The class of an exception crosses the bridge as a text prefix: a `std::exception` whose text begins like one is reported as another variant. Exceptions of gribjump derive from `eckit::Exception` and are `Error::Eckit`, never `Error::Gribjump` | `C84_refuted`, `C84_never_gribjump` |
| C85 | `scan_requests` in `gribjump_bridge.cpp` constructs `MarsRequest(std::string)`, which sets the verb, instead of parsing: the request text has no influence on what is scanned (every field is listed) | `C85_refuted` |
| C91 | a context received from a client is not checked (`LogContext(eckit::Stream&)`); if it is not JSON, `MetricsManager::report`, called outside the `try` of `GribJumpUser::serve`, throws after the reply and the metrics line is lost | `C91_refuted_malformed` |
| C93 | progress messages compare `nComplete_ == logcounter_` only while somebody waits and only for successful tasks: one task that ends before `waitForTasks`, or fails at a milestone, silences all later messages | `C93_refuted_*` |
| C94 | `LAST_ERROR_STR` is one `std::string` of the process without a lock, and cffi releases Python's lock during calls: of two threads with failing calls one may be told the other's error, both may store at once, or one may read through the pointer of `gribjump_error_string` after the other has stored (undefined) | `C94_refuted_*` |
| C97 | `ccsdsRsi` and `ccsdsBlockSize` are not checked for 0: with an interval table and 0 the search for the interval divides by zero (`Aec.cc`); three ranges with an inverted one between whose difference wraps break the precondition of `std::lower_bound`, also without bitmap; a number of points within 7 of 2^64 (a negative `numberOfDataPoints`) makes the bitmap empty and every range undefined | `C97_exclusions_needed` |
| C103 | `IndexFile::print` dereferences every record: after a process died while appending, `gribjump-dump-info` on that index file is undefined | `C103_refuted_torn` |
| C103 | `gribjump-scan --byfiles` is documented as true by default, the code uses false | `C103_refuted_byfiles_default` |
| C103 | `gribjump-scan --file` tests `in.bad()` after opening, which is not set by a failed open: a missing file is refused as an empty list of requests; had the test been true, `args(0)` would be out of range | `C103_scan_missing_file` |
| C106 | `decodeRanges` (ExtractionData.cc:81-94) reads as many numbers as announced, not as many as were sent: one malformed extract request makes any server read memory that was never written (the buffer is allocated to the announced size; past its end if eckit shrinks it to the blob) | witness in `C106_any_stream_refuted`, for every server |
| C106 | a forwarded file without items passes `Request.cc:123-138` (only the total is checked) and `Engine.cc:165` takes element 0 of an empty vector | witness in `C106_written_stream_refuted`, for every server |
| C108 | `ExtractionIterator.__iter__` (pygribjump.py:300-309) counts shapes from 0 in each loop, but all loops share the C iterator: after a loop left early (or `dump_values` that raised at a missing field) the next loop reads each remaining result with an earlier request's shape. Values cut in the wrong places, an exception, or, as `gribjump_result_mask` checks nothing before it writes, a heap overflow | `C108_refuted`, `C108_after_dump_refuted`, `C108_example` |
| C109 | `_load_values`, `_load_masks` (pygribjump.py:648-657, 682-691) set the buffer before they call the C function: for the empty result of a missing field the first access raises and the second returns zeros | `C109_refuted` |
| C110 | `ExtractionIterator.__init__` (pygribjump.py:289-296) passes an array of bare pointers made from the caller's own list; only that list keeps the requests alive. A thread that empties the list while another is in `extract` lets a request be freed before `gribjump_extract` copies it | `C110_refuted` |
| C66 | constant field with decimal scale factor D <> 0: the value returned is R, the GRIB formula gives R*10^-D (eccodes does the same) | `C66_refuted` |

Observed while reading, without a theorem of their own:
`CcsdsInfo::equals` casts without checking the class;
a binary scale factor of 1024 or more makes 2^E infinite and a packed 0 the missing value NaN (`C96_example_nan`);
a value of the wrong type in the configuration file raises even if the environment overrides the option;
`gribjump-scan` with a request file that cannot be opened reports empty requests, not the file (`ifstream::bad()`);
`gribjump-scan` documents `--byfiles` as defaulting to true, the code defaults to false;
`JumperFactory` and `InfoFactory` release their lock between finding a builder and using it, and are destroyed at exit before any static object constructed earlier (`C114_unloaded_in_use`, `C114_too_early`);
`pygribjump.version` replaces the module `packaging.version` that `PatchedLib.__init__` uses, so a second `PatchedLib()` fails (`C115_patched_once`);
`decodeVectorVector`/`decodeMask` trust the sizes sent by a server (UB of the client, `C106_client`);
requests with equal offsets in one forwarded file may swap results if the two sorts differ (excluded in C51 by a hypothesis);
`ExtractionItem::offset` does not catch `std::out_of_range`;
in Python an empty (missing) result raises on access.

## 5a. Wrong programs

`seeded/LOG.jsonl` has one line for each wrong program tried: the definition edited, the edit, the claim it breaks,
the theorems that no longer prove (`failed`: a theorem whose proof, or a lemma it refers to, stops), the lemmas at which
the proofs stop first, and the theorems that were tightened because the edit had gone unnoticed.  The edits were made in
a copy of the sources and rebuilt; equivalent edits are marked in `note`.

## 6. Coverage: what is modelled and what is not

| source | modelled in | not modelled |
|---|---|---|
| `compression/Range.{h,cc}`, `NumericCompressor.h` (decode) | `ModelRange.v`, `ModelSimple.v` | printing, hashing, compressor base class |
| `compressors/SimplePacking.cc`, `Simple.{h,cc}` | `ModelSimple.v` | the setters; `float` instantiation |
| `compressors/Aec.{h,cc}`, `Ccsds.{h,cc}` | `ModelCcsds.v` | libaec itself; big-endian machines; encoder |
| `DataAccessor.h`, `GribJumpDataAccessor.h` | `ModelSimple.v` | write accessors |
| `jumper/*.cc` | `ModelJumper.v`, `ModelFactory.v` (JumperFactory) | printing |
| `info/JumpInfo`, `SimpleInfo`, `CcsdsInfo`, `UnsupportedInfo` | `ModelInfo.v`, `ModelStream.v`, `ModelBuild.v`, `ModelInspect.v` | the text of a double |
| `info/InfoFactory.cc`, `InfoExtractor.cc` | `ModelScan.v`, `ModelBuild.v`, `ModelFactory.v` (registration), oracles `data`, `data_offsets` | the eccodes calls |
| `info/LRUCache.h`, `InfoCache.cc` (InfoCache, IndexFile) | `ModelLRU.v`, `ModelIndex.v`, `ModelCache.v` (one caller); `ModelThreads.v` (many threads and processes); `ModelInspect.v` (`IndexFile::print`) | `InfoCache::print` |
| `info/InfoAggregator.cc`, `FDBPlugin.cc` | `ModelPlugin.v` | counters, library registration |
| `remote/WorkQueue.cc`, `Task.{h,cc}` | `ModelQueue.v`, `ModelTask.v`, `ModelNotify.v`, `ModelEngine.v`, `ModelForward.v` | logging other than progress (`ModelLog.v`) |
| `Engine.cc`, `Lister.cc`, `LocalGribJump.cc`, `ExtractionItem.h`, `URIHelper.h` | `ModelEngine.v`, `ModelForward.v`, `ModelAxes.v` | the FDB calls |
| `ExtractionData.{h,cc}`, `remote/Protocol.cc` | `ModelProtocol.v` | printing; eckit's byte encoding |
| `remote/Request.cc`, `GribJumpUser.cc`, `RemoteGribJump.cc` | `ModelRemote.v` | sockets |
| `Forwarder.cc` | `ModelForward.v` | logging |
| `GribJump.cc`, `gribjump_c.cc`, `api/ExtractionIterator.h` | `ModelApi.v`, `ModelErrors.v`, `ModelClient.v` | version functions |
| `python/pygribjump/.../pygribjump.py` | `ModelPython.v`, `ModelObjects.v`, `ModelLife.v`, `ModelErrors.v`, `ModelUser.v`, `ModelFetch.v`, `ModelLoad.v` (loading) | cffi |
| `rust/crates/gribjump/src/{request,iterator,result,error,handle}.rs`, `gribjump-sys/cpp/gribjump_bridge.{h,cpp}` | `ModelApi.v`, `ModelRust.v`, `ModelClient.v`, `ModelShare.v` | the borrow checker and `cxx` (taken as given) |
| `tools/ToolUtils.cc`, `tools/EccodesExtract.cc`, `gribjump-extract.cc`, `gribjump-validate.cc`, `gribjump-scan-files.cc`, `gribjump-scan.cc`, `gribjump-dump-info.cc`, `gribjump-info.cc` | `ModelTools.v`, `ModelInspect.v` | MARS parsing, expansion and flattening; log output other than the labels of results; `gribjump-server`; `gribjump-old.cc` is commented out as a whole |
| `Config.{h,cc}`, `LibGribJump.cc`, `GribJumpFactory.cc` | `ModelConfig.v`, `ModelFactory.v`; in the other models the options are parameters | version texts |
| `Metrics.{h,cc}`, `LogRouter.cc` | `ModelContext.v`, `ModelLog.v` | timings, process name, the list of MARS requests in a metrics line |
| `Stats.{h,cc}` | not modelled | everything; no code calls it |

## 7. `Print Assumptions`, theorem by theorem

From the build output (each `Properties*.v` prints one answer per theorem).

`PropertiesAccuracy.v` (6 theorems), all "Closed under the global context": `C96_accuracy`, `C96_no_overflow`, `C96_present_is_not_missing`, `C96_powers_of_two_exact`, `C96_powers_of_ten`, `C96_extracted_values_partial`.

`PropertiesApi.v` (36 theorems), all "Closed under the global context": `C52_iterator`, `C52_c_interface`, `C52_rust_interface`, `C52_python_interface`, `C53_values_partial`, `C53_mask_partial`, `C53_mask_refuted`, `C53_documented_mask_size_refuted`, `C53_axes`, `C53_axes_sizes`, `C54_ranges`, `C54_every_even_array`, `C54_new_request`, `C54_new_request_parsed`, `C54_new_path_request`, `C54_extract_single`, `C54_odd_refused`, `C55_views`, `C55_legacy_view`, `C55_views_of_extraction`, `C55_other_shape_refused`, `C56_from_mask`, `C56_empty_mask_refused`, `C56_from_indices`, `C56_bad_indices_refused`, `C56_indices_accepted_iff_increasing`, `C57_round_trip`, `C57_library_receives`, `C57_range`, `C60_empty_arguments_refused`, `C60_other_arguments_passed_on`, `C60_c_interface`, `C61_pairs`, `C61_one_result_per_offset`, `C61_returns_fields`, `C61_entry_point`.

`PropertiesAxes.v` (9 theorems), all "Closed under the global context": `C101_python_local`, `C101_python_server`, `C101_rust_local`, `C101_rust_server`, `C101_same_view`, `C101_python`, `C101_python_error`, `C101_refused`, `C101_inside`.

`PropertiesBuild.v` (21 theorems), all "Closed under the global context": `C63_description_is_what_eccodes_says`, `C63_simple_packing_described`, `C63_ccsds_packing_described`, `C63_empty_ccsds_described`, `C63_other_packings_described`, `C63_other_packings_refused`, `C63_defined`, `C64_interval_table_partial`, `C64_refuted`, `C65_other_messages_partial`, `C65_ccsds_messages_partial`, `C65_refuted`, `C66_describe_then_extract`, `C66_values_of_the_formula_partial`, `C66_refuted`, `C67_results_are_the_stored_values`, `C67_call_succeeds`, `C68_archived_is_scanned`, `C68_scan_is_faithful`, `C68_scan_succeeds`, `C68_scan_finds`.

`PropertiesBusy.v` (9 theorems), all "Closed under the global context": `C105_tasks`, `C105_answer`, `C105_answer_paths`, `C105_answered`, `C105_values`, `C105_scan`, `C105_forwarded_scan`, `C105_scan_answered`, `C105_forwarded_scan_answered`.

`PropertiesClient.v` (9 theorems), all "Closed under the global context": `C104_rust`, `C104_rust_mars`, `C104_rust_paths`, `C104_rust_file`, `C104_local_paths`, `C104_local_file`, `C104_c`, `C104_cpp`, `C104_call`.

`PropertiesConcurrent.v` (9 theorems), all "Closed under the global context": `C88_histories`, `C88_each_once`, `C88_tasks`, `C88_answer`, `C88_answer_paths`, `C88_answered`, `C89_values`, `C89_server_values`, `C89_server_answers`.

`PropertiesConfig.v` (18 theorems), all "Closed under the global context": `C80_bool_options`, `C80_int_options`, `C80_threads`, `C80_string_options`, `C80_implementation`, `C80_server_map`, `C80_workers`, `C80_workers_wrapped`, `C80_refuted_no_workers`, `C80_refuted_no_answer`, `C80_refuted_size_zero`, `C80_plugin`, `C81_options_do_not_change`, `C81_first_read`, `C82_index_location`, `C82_refuted_disabled`, `C82_refuted_shared_index`, `C82_refuted_key`.

`PropertiesContext.v` (17 theorems), all "Closed under the global context": `C90_context_follows`, `C90_variable_unchanged`, `C90_through_servers`, `C90_headers_through_servers`, `C90_interface`, `C90_interface_refuses`, `C90_python`, `C90_python_keys`, `C91_line`, `C91_no_header`, `C91_refuted_malformed`, `C92_routes`, `C92_unknown_refused`, `C93_messages_true`, `C93_milestones_partial`, `C93_refuted_early`, `C93_refuted_failure`.

`PropertiesDecode.v` (12 theorems), all "Closed under the global context": `C01_multi_range_transparent`, `C01_answers_cut_from_decoded_blocks`, `C02_buckets`, `C03_simple_samples_partial`, `C03_any_width`, `C03_refuted`, `C04_random_access`, `C05_simple_scaling`, `C05_ccsds_scaling_partial`, `C05_refuted`, `C06_ccsds_window`, `C06_short_table_refuses`.

`PropertiesDeploy.v` (8 theorems), all "Closed under the global context": `C86_same_answer`, `C86_forwarder_keeps_items`, `C86_one_server`, `C86_one_server_answers`, `C86_forwarding_client`, `C86_through_front`, `C86_through_front_answers`, `C86_sound_deployment_exists`.

`PropertiesEngine.v` (31 theorems), all "Closed under the global context": `C36_one_result_per_request`, `C36_one_result_per_path_request`, `C36_in_request_order`, `C36_same_ranges`, `C36_paths_in_request_order`, `C37_order_does_not_matter`, `C37_pair_order_does_not_matter`, `C37_idempotent_partial`, `C37_refuted`, `C38_partial`, `C38_refuted`, `C39_duplicates_refused`, `C39_partial`, `C39_refuted`, `C39_path_duplicates_refused`, `C40_missing_is_detected`, `C40_found_are_served_partial`, `C40_refuted`, `C41_partial`, `C41_distinct`, `C41_refuted`, `C42_file_groups`, `C42_path_groups`, `C42_scan_groups`, `C43_local_files`, `C43_mismatch_refused`, `C43_refuted`, `C44_order_of_requests`, `C44_own_message`, `C45_partial`, `C45_refuted`.

`PropertiesErrors.v` (5 theorems), all "Closed under the global context": `C94_own_text_partial`, `C94_text_stays`, `C94_refuted_other_text`, `C94_refuted_race`, `C94_refuted_dangling`.

`PropertiesFactory.v` (5 theorems), all "Closed under the global context": `C114_life`, `C114_only`, `C114_library`, `C114_after`, `C114_threads`.

`PropertiesFetch.v` (11 theorems), all "Closed under the global context": `C112_python_paths`, `C112_python_paths_succeed`, `C112_python_paths_refused`, `C112_cut_at_nul`, `C112_c_paths`, `C112_c_passed_on`, `C112_c_paths_passed_on`, `C112_local_paths`, `C112_python_single`, `C112_python_single_succeeds`, `C112_python_single_refused`.

`PropertiesForward.v` (16 theorems), all "Closed under the global context": `C49_files_partitioned`, `C49_with_all_requests`, `C49_all_served`, `C49_unserved`, `C49_uris_partitioned`, `C49_unserved_scan`, `C50_partial`, `C50_refuted`, `C50_first_request_refuted`, `C50_same_offset_refused`, `C51_one_server`, `C51_results_of_owners`, `C51_succeeds`, `C51_fails`, `C51_requests`, `C51_sound_sites_exist`.

`PropertiesHostile.v` (13 theorems), all "Closed under the global context": `C106_server`, `C106_any_stream_refuted`, `C106_written_stream_refuted`, `C106_client`, `C106_forwarding_client`, `C106_other_clients`, `C106_forwarder`, `C106_deployment`, `C106_deployment_defined`, `C106_deployment_paths`, `C106_deployment_paths_defined`, `C106_through_front`, `C106_assumptions_hold`.

`PropertiesInfo.v` (29 theorems), all "Closed under the global context": `C16_finds_every_header`, `C17_least_recently_used`, `C17_log_is_the_calls`, `C17_refuted_capacity_zero`, `C18_lookup_is_true_partial`, `C18_names_apart`, `C18_refuted_key_collision`, `C19_one_info_per_offset`, `C19_fails_exactly_when`, `C20_save_load`, `C20_new_file_load`, `C20_appended_batches`, `C20_load_keeps`, `C20_merge_keeps`, `C21_rewrite_atomic`, `C22_append_crash_partial`, `C22_refuted_unreadable`, `C22_refuted_null_record`, `C23_scan_partial`, `C23_scan_succeeds`, `C23_refuted_count`, `C24_regenerates_partial`, `C24_refuted`, `C25_inserted_are_found_partial`, `C25_lookups_between`, `C25_refuted_rewrite`, `C26_roundtrip`, `C26_concatenation`, `C26_truncated_refused`.

`PropertiesInspect.v` (15 theorems), all "Closed under the global context": `C102_compares`, `C102_symmetric`, `C102_made_from_a_file`, `C102_made_from_a_message`, `C102_written`, `C103_dump`, `C103_dump_in_order`, `C103_dump_missing`, `C103_refuted_torn`, `C103_info`, `C103_scan_arguments`, `C103_scan_file`, `C103_scan_both`, `C103_scan_missing_file`, `C103_refuted_byfiles_default`.

`PropertiesJumper.v` (19 theorems), all "Closed under the global context": `C07_read_inside_section_partial`, `C07_refuted`, `C07_extraction_reads_own_sections_only`, `C08_extract_without_bitmap`, `C09_extract_with_bitmap`, `C10_mask_words`, `C10_mask_words_unique`, `C11_result_shape`, `C12_beyond_data_refused_partial`, `C12_no_undefined_behaviour_partial`, `C12_refuted_constant`, `C12_refuted_packed`, `C13_malformed_refused`, `C13_overlap_refused`, `C13_wellformed_accepted`, `C13_refuted`, `C14_missing_points_partial`, `C14_refuted`, `C15_splitting`.

`PropertiesLife.v` (5 theorems), all "Closed under the global context": `C110_safe_partial`, `C110_kept`, `C110_owned`, `C110_all_freed`, `C110_refuted`.

`PropertiesLoad.v` (8 theorems), all "Closed under the global context": `C115_importing`, `C115_checked`, `C115_unreadable`, `C115_older`, `C115_release_decides`, `C115_suffixes`, `C115_version_int`, `C115_patched_once`.

`PropertiesMany.v` (13 theorems), all "Closed under the global context": `C113_forwarding`, `C113_front`, `C113_busy_forwarding`, `C113_busy`, `C113_busy_server`, `C113_forwarding_paths`, `C113_busy_paths`, `C113_busy_forwarding_paths`, `C113_python_served`, `C113_rust_served`, `C113_cpp_served`, `C113_c_served`, `C113_assumptions_hold`.

`PropertiesNotify.v` (10 theorems), all "Closed under the global context": `C107_seen_as`, `C107_nothing_lost`, `C107_histories`, `C107_returned`, `C107_answer`, `C107_never_dangling`, `C107_completes`, `C107_no_endless_run`, `C107_progress`, `C107_schedules`.

`PropertiesNumbers.v` (3 theorems), all "Closed under the global context": `C99_requests`, `C99_python`, `C99_python_mask`.

`PropertiesObjects.v` (11 theorems), all "Closed under the global context": `C108_any_use_partial`, `C108_one_loop`, `C108_whole_loop`, `C108_single`, `C108_dump_values`, `C108_refuted`, `C108_after_dump_refuted`, `C109_first_access`, `C109_repeatable_partial`, `C109_refuted`, `C109_other_shape_refuted`.

`PropertiesPaths.v` (7 theorems), all "Closed under the global context": `C87_distinct_names`, `C87_local`, `C87_local_answers`, `C87_forwarded`, `C87_forwarded_answers`, `C87_direct`, `C87_direct_answers`.

`PropertiesPlugin.v` (18 theorems), all "Closed under the global context": `C58_archived_is_indexed`, `C58_grib_message`, `C58_archived_is_found`, `C58_cache_calls`, `C58_fulfilled_first`, `C58_callbacks_answer`, `C58_no_deadlock`, `C58_steps_bounded`, `C58_can_finish`, `C58_same_as_serial`, `C58_failed_future_kills`, `C59_partial`, `C59_accepted`, `C59_matches`, `C59_total`, `C59_refuted`, `C59_missing_keyword_refuted`, `C59_malformed_refuted`.

`PropertiesQueue.v` (22 theorems), all "Closed under the global context": `C27_conserves`, `C28_rotation`, `C28_bound`, `C29_stops_when_empty`, `C29_all_executed`, `C29_push_refused`, `C29_terminates`, `C30_mentions_exactly`, `C30_forgotten_after_last`, `C31_returned_means_finished`, `C31_stays`, `C32_successful_request_completes`, `C32_no_endless_run`, `C32_settles`, `C32_who_is_left`, `C33_refuted`, `C33_cancelled_hangs`, `C33_partial`, `C34_errors_exact`, `C34_workers_survive`, `C35_refuted`, `C35_partial`.

`PropertiesRemote.v` (24 theorems), all "Closed under the global context": `C46_request_round_trip`, `C46_reply_round_trip`, `C46_server_sees_the_batch`, `C47_errors_reach_the_client`, `C47_no_errors`, `C47_exceptions_reach_the_client`, `C47_torn_answers_raise`, `C47_torn_errors_raise`, `C48_acts_only_on_good_headers`, `C48_other_versions`, `C48_unknown_types`, `C62_extract`, `C62_axes`, `C62_scan`, `C62_forward_extract`, `C62_forward_scan`, `C62_empty_axes`, `C62_empty_forward_extract`, `C62_request_consumed`, `C62_torn_request`, `C62_refuted`, `C62_reply_after_errors_unread`, `C62_request_of_other_version_unread`, `C62_sound_links_exist`.

`PropertiesRust.v` (17 theorems), all "Closed under the global context": `C83_range`, `C83_iter`, `C83_total_values`, `C83_is_valid`, `C83_is_valid_beyond`, `C83_validity`, `C83_no_masks`, `C83_views_of_extraction`, `C84_variant_partial`, `C84_never_gribjump`, `C84_std_exception`, `C84_refuted`, `C85_path_request_partial`, `C85_built_request`, `C85_paths_handed_on`, `C85_requests_handed_on`, `C85_refuted`.

`PropertiesSafety.v` (9 theorems), all "Closed under the global context": `C97_undefined_exactly_when`, `C97_one_range`, `C97_exclusions_needed`, `C98_requests`, `C98_path_requests`, `C98_direct`, `C98_system`, `C98_system_paths`, `C98_system_direct`.

`PropertiesScanning.v` (6 theorems), all "Closed under the global context": `C73_union_request`, `C74_local_scan`, `C74_nothing_listed`, `C74_named_files`, `C74_forwarded_partial`, `C74_refuted_forwarded_byfiles`.

`PropertiesServe.v` (4 theorems), all "Closed under the global context": `C100_scan_then_serve`, `C100_scans_succeed`, `C100_scan_covers`, `C100_records_stay`.

`PropertiesShare.v` (8 theorems), all "Closed under the global context": `C111_safe`, `C111_one_by_one`, `C111_handle`, `C111_progress`, `C111_released`, `C111_results`, `C111_next`, `C111_views`.

`PropertiesThreads.v` (14 theorems), all "Closed under the global context": `C69_lookups_right_partial`, `C69_not_emptied`, `C69_refuted_wrong_description`, `C69_refuted_emptied`, `C70_lookups_succeed_partial`, `C70_refuted_lookup_beside_flush`, `C70_refuted_scan_beside_flush`, `C71_inserts_kept_partial`, `C71_refuted_beside_scan`, `C71_refuted_two_scans`, `C72_no_deadlock`, `C72_all_calls_return`, `C72_no_endless_run`, `C75_concurrent_scans_keep`.

`PropertiesTools.v` (15 theorems), all "Closed under the global context": `C76_documented_format`, `C76_accepts_exactly`, `C76_refuted_malformed`, `C76_refuted_missing_file`, `C77_labels_partial`, `C77_ranges`, `C77_refuted_labels`, `C77_refuted_options`, `C77_other_options`, `C77_verb`, `C78_files_scanned`, `C78_all_scanned`, `C78_refuted_skip_existing`, `C79_validates`, `C79_refuted_missing_points`.

`PropertiesUser.v` (9 theorems), all "Closed under the global context": `C95_python_user`, `C95_call_succeeds`, `C95_mask`, `C95_indices`, `C95_local`, `C95_server`, `C95_plain_dict`, `C95_lists`, `C95_no_lists`.

