{"id": "C01", "title": "Multi-range decoding is transparent", "statement": "Decoding a list of (offset,size) ranges of one field returns, in request order, one vector per range, and each vector is exactly the points [offset, offset+size) of the whole field, although the implementation first merges the ranges into buckets, decodes each bucket once and slices the answers out again. The order, overlap, adjacency, repetition or emptiness of the ranges never changes the answer.", "quantifier": "every list of ranges (any length, any order, overlapping, duplicated, touching, empty) and every field content", "why_tests_cant": "The number of overlap/touch/duplicate patterns is unbounded; unit tests use a handful of sorted, disjoint ranges.", "anchors": ["src/gribjump/compression/NumericCompressor.h:decode", "src/gribjump/compression/Range.cc:operator<<"]}
{"id": "C02", "title": "Buckets are sorted, separated, and cover exactly the requested points", "statement": "After any sequence of range insertions the decoder's bucket list is strictly ordered and no two buckets overlap or touch, so no point is decoded twice; the union of the buckets is exactly the union of the inserted ranges, so nothing unrequested is read; every inserted range is recorded in exactly one bucket that contains it.", "quantifier": "every sequence of insertions of arbitrary ranges", "why_tests_cant": "Insertion order interacts with merging; only an inductive invariant covers every history.", "anchors": ["src/gribjump/compression/Range.cc:operator<<", "src/gribjump/compression/Range.h:BlockBucket"]}
{"id": "C03", "title": "Simple-packing sample extraction is the big-endian bit-field specification", "statement": "Reading n samples of b bits starting at sample k from a byte buffer yields, for each i, the unsigned integer formed by bits [(k+i)*b, (k+i+1)*b) of the buffer in most-significant-bit-first order.", "quantifier": "every buffer, every start sample, every count and every bit width 1..64", "why_tests_cant": "2^b contents times every bit alignment times every width; the library has no test for unusual widths.", "anchors": ["src/gribjump/compression/compressors/SimplePacking.cc:decode_array", "src/gribjump/compression/compressors/SimplePacking.cc:unpack"]}
{"id": "C04", "title": "Random access equals full decode (simple packing)", "statement": "For a simple-packed field, decoding only the bytes that a range needs gives the same values as decoding the whole data section and taking that slice, whatever the alignment of the range inside a byte.", "quantifier": "every data section, bit width, scale factors and in-bounds range", "why_tests_cant": "Alignment is range*width mod 8 for all ranges and widths.", "anchors": ["src/gribjump/compression/compressors/Simple.cc:decode", "src/gribjump/compression/compressors/SimplePacking.cc:unpack"]}
{"id": "C05", "title": "Decoded values follow the GRIB scaling formula", "statement": "A decoded value is (R + X*2^E) * 10^(-D), where X is the packed sample, R the reference value, E the binary scale factor and D the decimal scale factor, for both packings (simple and CCSDS) and for negative, zero and positive E and D.", "quantifier": "every sample, every reference value, every pair of scale factors", "why_tests_cant": "Scale factors range over all integers; the test data only contains a few, mostly with D = 0.", "anchors": ["src/gribjump/compression/NumericCompressor.h:codes_power", "src/gribjump/compression/compressors/SimplePacking.cc:unpack", "src/gribjump/compression/compressors/Ccsds.cc:decode"]}
{"id": "C06", "title": "CCSDS random access decodes the right window", "statement": "For a CCSDS field with its stored block offsets, decoding a range reads only a byte window of the compressed stream and returns exactly the requested samples of the full decompression, for every range inside the field.", "quantifier": "every compressed stream with its block offset table, every block/rsi size and sample width, every in-bounds range", "why_tests_cant": "Window arithmetic mixes bits, bytes and samples; boundary cases (range ends on a block boundary, last block, unaligned block starts) are combinatorial.", "anchors": ["src/gribjump/compression/compressors/Aec.cc:decode", "src/gribjump/compression/compressors/Ccsds.cc:decode"]}
{"id": "C07", "title": "Data reads never leave the message's data section", "statement": "Every read made while extracting lies inside the data section described by the field's info; a read that would cross the end is refused with an error and never returns bytes of a neighbouring message.", "quantifier": "every offset/size read request (including 64-bit extremes) and every section bound", "why_tests_cant": "Absence of out-of-bounds reads is a universal statement including 64-bit wrap-around.", "anchors": ["src/gribjump/compression/GribJumpDataAccessor.h:read", "src/gribjump/compression/DataAccessor.h:MemoryAccessor"]}
{"id": "C08", "title": "Extraction without bitmap returns the requested points", "statement": "For a field without bitmap, extracting a list of ranges returns for range i the values of points begin_i..end_i-1 in order and a mask with every one of those points marked present.", "quantifier": "every field, every sorted non-overlapping list of ranges within the field", "why_tests_cant": "Unbounded fields, ranges and alignments.", "anchors": ["src/gribjump/jumper/Jumper.cc:extractNoMask", "src/gribjump/jumper/SimpleJumper.cc:readValues", "src/gribjump/jumper/CcsdsJumper.cc:readValues"]}
{"id": "C09", "title": "Extraction with bitmap aligns packed values to grid points", "statement": "For a field with a bitmap, point p of a requested range is NaN exactly when the bitmap marks p missing, and otherwise is the packed value number (count of present points before p).", "quantifier": "every bitmap, every packed data content, every sorted non-overlapping list of in-bounds ranges, including ranges that are entirely missing, empty or adjacent", "why_tests_cant": "Correctness depends on running counts of missing points across all gaps; every bitmap/range combination matters.", "anchors": ["src/gribjump/jumper/Jumper.cc:extractMasked", "src/gribjump/jumper/Jumper.cc:calculateMaskedIntervals", "src/gribjump/jumper/Jumper.cc:readBitmap"]}
{"id": "C10", "title": "Returned mask words encode presence bit by bit", "statement": "The mask of a range of n points has ceil(n/64) words; bit j of word i is set exactly when point 64*i+j of the range exists and is present; unused bits of the last word are zero.", "quantifier": "every presence vector of every length", "why_tests_cant": "All lengths modulo 64 and all contents.", "anchors": ["src/gribjump/jumper/Jumper.cc:toBitset"]}
{"id": "C11", "title": "Result shape matches the request", "statement": "When extraction of a field succeeds, the result has exactly one value vector and one mask per requested range, and the i-th value vector has exactly end_i - begin_i entries.", "quantifier": "every field kind (constant, masked, unmasked) and every accepted list of ranges", "why_tests_cant": "Clients compute buffer sizes from the request; a mismatch for any input is a memory error downstream.", "anchors": ["src/gribjump/jumper/Jumper.cc:extract", "src/gribjump/jumper/Jumper.cc:extractConstant"]}
{"id": "C12", "title": "Ranges beyond the field are refused", "statement": "A range whose end exceeds the number of points of the field is answered with an error; data or undefined behaviour is never produced for points that do not exist.", "quantifier": "every field and every range with end > number of points, including ends close to 2^64", "why_tests_cant": "Negative property over an infinite set of bad inputs.", "anchors": ["src/gribjump/jumper/Jumper.cc:checkIntervals", "src/gribjump/jumper/Jumper.cc:extractConstant", "src/gribjump/compression/compressors/Simple.cc:decode"]}
{"id": "C13", "title": "Malformed range lists are refused", "statement": "An empty range list, a list with two overlapping ranges, or a list not in increasing order is rejected with an error before any data is read; every increasing non-overlapping list passes this check. A range with begin greater than end is rejected as well.", "quantifier": "every list of pairs of 64-bit integers", "why_tests_cant": "All lists.", "anchors": ["src/gribjump/jumper/Jumper.cc:checkIntervals", "src/gribjump/jumper/Jumper.cc:extract"]}
{"id": "C14", "title": "Missing points are reported missing for every field kind", "statement": "If the field's bitmap marks a point as missing then the extracted value is NaN and its mask bit is zero, also when the field is constant.", "quantifier": "every field with a bitmap, every in-bounds range", "why_tests_cant": "Constant fields with partial bitmaps are rare and not in the test data.", "anchors": ["src/gribjump/jumper/Jumper.cc:extractConstant", "src/gribjump/jumper/Jumper.cc:extract"]}
{"id": "C15", "title": "Splitting a range does not change the values", "statement": "Extracting [a,c) gives the same values as extracting [a,b) and [b,c) in one request and concatenating, for constant, masked and unmasked fields.", "quantifier": "every field, every a <= b <= c within the field", "why_tests_cant": "Metamorphic relation over all fields and cut points.", "anchors": ["src/gribjump/jumper/Jumper.cc:extract"]}
{"id": "C16", "title": "GRIB message search finds every header occurrence", "statement": "Searching a file for message starts returns, in increasing order, every byte position where the four bytes 'GRIB' occur except the last such position, independent of how occurrences straddle the internal read buffer.", "quantifier": "every file content and every read-buffer size of at least three bytes", "why_tests_cant": "Straddling positions depend on a 1 MiB buffer; tests never build such files.", "anchors": ["src/gribjump/info/InfoExtractor.cc:findGRIBOffsets"]}
{"id": "C17", "title": "Info cache respects its capacity and evicts the least recently used entry", "statement": "With capacity at least one, after any sequence of puts and gets the cache holds at most capacity entries; a get returns the last value put for that key unless capacity or more distinct other keys have been used since; get of an absent key is an error.", "quantifier": "every sequence of put/get/exists/clear operations, every capacity", "why_tests_cant": "Histories are unbounded.", "anchors": ["src/gribjump/info/LRUCache.h:put", "src/gribjump/info/LRUCache.h:get"]}
{"id": "C18", "title": "Info lookup returns the info of the requested message", "statement": "Looking up (file, offset) returns the description of exactly that message of exactly that file, in the order of the requested offsets, whatever other files and offsets the process handled before.", "quantifier": "every history of lookups, inserts, scans and evictions over any set of paths and offsets", "why_tests_cant": "Wrong-info bugs need particular histories and particular file names.", "anchors": ["src/gribjump/info/InfoCache.cc:get", "src/gribjump/info/InfoCache.cc:cachekey", "src/gribjump/info/InfoCache.cc:cacheFilePath"]}
{"id": "C19", "title": "Info lookup is all-or-nothing", "statement": "A batch lookup either returns one info per requested offset or raises an error; it never returns a shorter list, and with lazy extraction disabled it raises an error if and only if some distinct offset is neither cached nor indexed, or the request repeats an offset.", "quantifier": "every cache/index state and every list of offsets (including repeated ones)", "why_tests_cant": "All states and lists.", "anchors": ["src/gribjump/info/InfoCache.cc:get"]}
{"id": "C20", "title": "Index files survive a save/load cycle", "statement": "Saving an index and loading it in another process yields the same mapping from offset to info; loading a file to which several batches were appended yields the union in which the earliest record of an offset wins.", "quantifier": "every index content, every number of appended batches", "why_tests_cant": "Unbounded contents and histories.", "anchors": ["src/gribjump/info/InfoCache.cc:IndexFile::toNewFile", "src/gribjump/info/InfoCache.cc:IndexFile::appendToFile", "src/gribjump/info/InfoCache.cc:IndexFile::fromFile"]}
{"id": "C21", "title": "Rewriting an index file is crash-atomic", "statement": "If the process dies at any moment while an index file is being (re)written, a later load sees either the complete old index or the complete new index.", "quantifier": "every crash point during the write, every old and new content", "why_tests_cant": "Crash points cannot be enumerated by unit tests.", "anchors": ["src/gribjump/info/InfoCache.cc:IndexFile::write"]}
{"id": "C22", "title": "Appending to an index file never corrupts what is read back", "statement": "If the process dies at any moment while a batch is appended to an index file, a later load never yields a wrong info, and the batches that were complete before the crash are still readable.", "quantifier": "every crash point during an append, every prior content and batch", "why_tests_cant": "Torn writes at every byte position.", "anchors": ["src/gribjump/info/InfoCache.cc:IndexFile::appendToFile", "src/gribjump/info/InfoCache.cc:IndexFile::fromFile"]}
{"id": "C23", "title": "Scanning is complete, truthful and idempotent", "statement": "After scanning a file at a list of offsets, the index on disk has an entry for every listed offset, keeps every previous entry, and each new entry equals the info extracted at that offset; the returned count is the number of newly indexed messages; repeating the scan indexes nothing and leaves the index unchanged.", "quantifier": "every index state and list of offsets", "why_tests_cant": "Relation between arbitrary histories of scans.", "anchors": ["src/gribjump/info/InfoCache.cc:scan"]}
{"id": "C24", "title": "A non-merging scan regenerates the index", "statement": "Scanning a whole file with merging turned off produces an index that depends only on the current file content: entries left by an older scan do not survive.", "quantifier": "every previous index content and current file content", "why_tests_cant": "Needs stale previous content, for all such contents.", "anchors": ["src/gribjump/info/InfoCache.cc:scan", "src/gribjump/info/InfoCache.h:scan"]}
{"id": "C25", "title": "Inserted infos are found after flush", "statement": "An info inserted for (file, offset) and flushed is returned by a later lookup in a new process, unless an earlier record for the same offset was already on disk, in which case that earlier record is returned.", "quantifier": "every sequence of inserts over any files and offsets followed by a flush (append or rewrite)", "why_tests_cant": "Unbounded insertion histories.", "anchors": ["src/gribjump/info/InfoCache.cc:insert", "src/gribjump/info/InfoCache.cc:flush"]}
{"id": "C26", "title": "Field descriptions survive serialisation", "statement": "Encoding a field description (simple, CCSDS or unsupported packing) to a stream and decoding it yields an equal description and consumes exactly the bytes written, so that descriptions can be concatenated.", "quantifier": "every field description and every following stream content", "why_tests_cant": "All field values, all continuation streams.", "anchors": ["src/gribjump/info/JumpInfo.cc:encode", "src/gribjump/info/CcsdsInfo.cc:encode", "src/gribjump/info/SimpleInfo.cc:encode"]}
{"id": "C27", "title": "The work queue neither loses, duplicates nor invents tasks", "statement": "For every interleaving of pushes and pops, the tasks popped so far together with the tasks still queued are exactly the tasks pushed, and tasks of one request group are popped in the order they were pushed.", "quantifier": "every sequence of push/pop operations over any number of groups", "why_tests_cant": "Concurrent schedules are unbounded.", "anchors": ["src/gribjump/remote/WorkQueue.cc:push", "src/gribjump/remote/WorkQueue.cc:popNext"]}
{"id": "C28", "title": "Round-robin fairness", "statement": "If k groups have queued work then the next task of any of them is dispatched after at most k-1 tasks of other groups plus one per group newly admitted ahead of it - in fact newly admitted groups never overtake: at most k-1 other tasks are dispatched first, and each other group contributes at most one.", "quantifier": "every reachable queue state, every later sequence of pushes and pops", "why_tests_cant": "Bound on all schedules.", "anchors": ["src/gribjump/remote/WorkQueue.cc:popNext", "docs/gribjump/round-robin-scheduling.md"]}
{"id": "C29", "title": "Shutdown drains the queue", "statement": "After the queue is closed, workers still execute every queued task before they stop; no push is accepted after close; a worker stops only when the queue is closed and empty.", "quantifier": "every queue content at close and every interleaving of workers", "why_tests_cant": "Schedules at shutdown.", "anchors": ["src/gribjump/remote/WorkQueue.cc:~WorkQueue", "src/gribjump/remote/WorkQueue.cc:workerLoop", "src/gribjump/remote/WorkQueue.cc:popNext"]}
{"id": "C30", "title": "The queue keeps no reference to a group without queued tasks", "statement": "At any time the scheduler's rotation and per-group tables mention exactly the groups that have at least one queued task, each once; after the last queued task of a group has been dispatched the queue holds no reference to it, so its owner may destroy it.", "quantifier": "every reachable queue state", "why_tests_cant": "Dangling references appear only for particular push/pop histories.", "anchors": ["src/gribjump/remote/WorkQueue.cc:popNext", "src/gribjump/remote/WorkQueue.cc:push"]}
{"id": "C31", "title": "Waiting for a group returns only after every task has finished", "statement": "When waiting for a group of tasks returns, every task of the group has run to completion or failed or been cancelled; no task of the group executes afterwards.", "quantifier": "every number of tasks and workers and every interleaving of start, finish, failure and cancellation", "why_tests_cant": "All schedules.", "anchors": ["src/gribjump/Task.cc:waitForTasks", "src/gribjump/Task.cc:notify", "src/gribjump/Task.cc:execute"]}
{"id": "C32", "title": "A request whose tasks all succeed always completes", "statement": "If no task fails, then from every reachable state, every fair schedule leads to the waiter returning; there is no deadlock or livelock, for one or more workers.", "quantifier": "every number of tasks, groups and workers (at least one), every schedule", "why_tests_cant": "Liveness over all schedules.", "anchors": ["src/gribjump/Task.cc:waitForTasks", "src/gribjump/remote/WorkQueue.cc:workerLoop"]}
{"id": "C33", "title": "A request with a failing task also completes", "statement": "If a task of a group fails, waiting for the group still returns (with the error recorded), for every schedule.", "quantifier": "every number of tasks, workers, every failing subset, every schedule", "why_tests_cant": "The hang needs a failing task with siblings still queued; no test does that.", "anchors": ["src/gribjump/Task.cc:execute", "src/gribjump/Task.cc:cancel", "src/gribjump/Task.cc:notifyCancelled", "src/gribjump/Task.cc:waitForTasks"]}
{"id": "C34", "title": "Task failures are reported exactly", "statement": "When waiting returns, the error list is non-empty exactly when some task failed, has one message per failed task, and a failure in one task never stops a worker from serving other tasks and other requests.", "quantifier": "every schedule and every failing subset", "why_tests_cant": "All schedules.", "anchors": ["src/gribjump/Task.cc:notifyError", "src/gribjump/remote/WorkQueue.cc:workerLoop", "src/gribjump/remote/WorkItem.cc:run"]}
{"id": "C35", "title": "Queued tasks never outlive their group", "statement": "No operation leaves a task in the work queue whose group (and thus the task object) has been destroyed, including when scheduling a request is abandoned with an error half way.", "quantifier": "every request, including those mixing local and remote data", "why_tests_cant": "Requires an error in the middle of scheduling.", "anchors": ["src/gribjump/Engine.cc:scheduleExtractionTasks", "src/gribjump/Engine.cc:extract"]}
{"id": "C36", "title": "Results are returned in request order", "statement": "A multi-request extraction returns exactly one result per request, at the same position, whatever file, server, or sort order the work was distributed in.", "quantifier": "every list of requests and every assignment of requests to files", "why_tests_cant": "The internal map reorders requests alphabetically and tasks reorder by offset; all permutations matter.", "anchors": ["src/gribjump/LocalGribJump.cc:extract", "src/gribjump/Engine.cc:extract", "src/gribjump/Engine.cc:collectResults"]}
{"id": "C37", "title": "Request identity ignores key order", "statement": "Two request strings that differ only in the order of their key=value pairs denote the same field request; canonicalisation is insensitive to that order and is idempotent.", "quantifier": "every list of key=value pairs and every permutation", "why_tests_cant": "All permutations.", "anchors": ["src/gribjump/Engine.cc:buildRequestMap"]}
{"id": "C38", "title": "A request's meaning does not depend on the other requests in the batch", "statement": "The canonical form under which a request is looked up is a function of that request alone; reordering or removing other requests does not change which field it denotes.", "quantifier": "every batch of requests", "why_tests_cant": "Interaction between requests in one call.", "anchors": ["src/gribjump/Engine.cc:buildRequestMap"]}
{"id": "C39", "title": "Duplicate requests are refused, never silently merged", "statement": "If two requests of a batch denote the same field, the call fails with an error; it never returns fewer results than requests.", "quantifier": "every batch containing duplicates, in any order", "why_tests_cant": "All batches.", "anchors": ["src/gribjump/Engine.cc:buildRequestMap", "src/gribjump/LocalGribJump.cc:extract"]}
{"id": "C40", "title": "Missing data is detected", "statement": "Unless missing fields are allowed, an extraction either locates every requested field or fails with a data-not-found error; when missing fields are allowed, each missing request yields an empty result at its position and the found ones are unaffected.", "quantifier": "every request set and every (duplicate-free) catalogue listing", "why_tests_cant": "All subsets of missing fields.", "anchors": ["src/gribjump/Lister.cc:fileMap"]}
{"id": "C41", "title": "Catalogue keys match canonical requests", "statement": "The string built from a catalogued field's key equals the canonical form of a request with the same key=value pairs, so that a catalogued field is always recognised.", "quantifier": "every set of key=value pairs", "why_tests_cant": "The two sides sort differently (by key vs by key=value); only a proof shows when they agree.", "anchors": ["src/gribjump/Lister.cc:fdbkeyToStr", "src/gribjump/Engine.cc:buildRequestMap"]}
{"id": "C42", "title": "Work is partitioned by file", "statement": "Distributing located requests over files assigns every request to exactly one file group, the group of its own location, and no group is empty; likewise listing for a scan assigns every location to its own file.", "quantifier": "every catalogue listing", "why_tests_cant": "All listings.", "anchors": ["src/gribjump/Lister.cc:fileMap", "src/gribjump/Lister.cc:fileMapfromPaths", "src/gribjump/Lister.cc:filesOffsets"]}
{"id": "C43", "title": "Grid hash mismatches are refused", "statement": "Unless grid checking is switched off, a request is answered with data only if it carries the grid hash of the field it reads; a missing or different hash produces an error and no data for that file, on every extraction path.", "quantifier": "every batch of requests and infos, every extraction path (local file, remote handle)", "why_tests_cant": "All batches with one mismatching request at any position.", "anchors": ["src/gribjump/Task.cc:FileExtractionTask::extract", "src/gribjump/Task.cc:InefficientFileExtractionTask::extract"]}
{"id": "C44", "title": "Extraction of a file does not depend on the order of its requests", "statement": "The result attached to a request is the extraction of the message at its own offset with its own ranges, whatever the order in which the requests for that file were listed and processed.", "quantifier": "every list of (offset, ranges, hash) requests with distinct offsets", "why_tests_cant": "The implementation sorts in place with an unstable sort and pairs by position.", "anchors": ["src/gribjump/Task.cc:FileExtractionTask::extract"]}
{"id": "C45", "title": "Remote messages are read completely", "statement": "When a message is read through a remote handle in several pieces, the buffer that is decoded equals the message.", "quantifier": "every message and every sequence of piece sizes the transport may deliver", "why_tests_cant": "Depends on network segmentation.", "anchors": ["src/gribjump/Task.cc:InefficientFileExtractionTask::extract"]}
{"id": "C46", "title": "Remote extraction messages survive the wire", "statement": "For every batch of requests the server decodes exactly the requests the client sent, and for every list of results the client decodes exactly the results the server sent (including empty results, empty ranges, NaN payloads and masks), both sides consuming exactly the bytes of the message.", "quantifier": "every batch, every result content, every following stream content", "why_tests_cant": "All contents; flattening and re-splitting has many shapes.", "anchors": ["src/gribjump/remote/Protocol.cc:encodeExtractRequest", "src/gribjump/remote/Protocol.cc:decodeExtractReply", "src/gribjump/ExtractionData.cc:encode"]}
{"id": "C47", "title": "Server-side errors reach the client", "statement": "If the server records errors for a request, the client call fails with an exception that contains every error message in order; if it records none the client call succeeds. In both cases the reply stream is well formed.", "quantifier": "every list of error messages and every reply", "why_tests_cant": "All lists.", "anchors": ["src/gribjump/remote/Protocol.cc:encodeErrors", "src/gribjump/remote/Protocol.cc:decodeErrors", "src/gribjump/remote/GribJumpUser.cc:processRequest"]}
{"id": "C48", "title": "Protocol version mismatch is refused", "statement": "A server only acts on a request whose protocol version equals its own and whose request type is known; anything else produces an error reply and no action.", "quantifier": "every header", "why_tests_cant": "All version and type values.", "anchors": ["src/gribjump/remote/Protocol.cc:decodeHeader", "src/gribjump/remote/GribJumpUser.cc:dispatch"]}
{"id": "C49", "title": "Forwarding partitions files over servers", "statement": "When work is forwarded, every file is sent to exactly one server, the one configured for its location, together with all of its requests; nothing is sent twice or dropped; if a location has no configured server the whole call fails before anything is sent.", "quantifier": "every server map and file map", "why_tests_cant": "All maps.", "anchors": ["src/gribjump/Forwarder.cc:serverFileMap", "src/gribjump/Forwarder.cc:extract", "src/gribjump/Forwarder.cc:scan"]}
{"id": "C50", "title": "Each request is forwarded to the server of its own host", "statement": "A request that names a host is executed by the server configured for that host.", "quantifier": "every list of path requests, including equal paths on different hosts", "why_tests_cant": "Needs identical paths on two hosts.", "anchors": ["src/gribjump/Lister.cc:fileMapfromPaths", "src/gribjump/Forwarder.cc:serverFileMap"]}
{"id": "C51", "title": "Forwarded extraction equals local extraction", "statement": "Extracting through a forwarding server attaches to every request the same result as extracting at the server that owns the data.", "quantifier": "every file map with distinct offsets per file", "why_tests_cant": "Results come back positionally after two sorts.", "anchors": ["src/gribjump/Forwarder.cc:extract", "src/gribjump/remote/Protocol.cc:encodeForwardExtractRequest", "src/gribjump/remote/Protocol.cc:decodeForwardExtractReply", "src/gribjump/Task.cc:ForwardExtractionTask"]}
{"id": "C52", "title": "Result iteration yields every result once", "statement": "Iterating an extraction yields each result exactly once in order and then reports completion forever; no result is yielded after completion.", "quantifier": "every number of results and every number of next calls", "why_tests_cant": "All call counts.", "anchors": ["src/gribjump/api/ExtractionIterator.h", "src/gribjump/gribjump_c.cc:gribjump_extractioniterator_next"]}
{"id": "C53", "title": "C result accessors never write outside the caller's buffer", "statement": "Copying values or masks of a result into a caller buffer of declared size n writes only inside the buffer and reports an error if n is not the exact number of elements.", "quantifier": "every result and every declared size", "why_tests_cant": "Buffer overflow for particular sizes.", "anchors": ["src/gribjump/gribjump_c.cc:gribjump_result_values", "src/gribjump/gribjump_c.cc:gribjump_result_mask"]}
{"id": "C54", "title": "The C range array denotes the intended ranges", "statement": "A flat array of 2k integers passed to the C interface is understood as the k ranges in order; arrays of odd length are refused.", "quantifier": "every array", "why_tests_cant": "All arrays.", "anchors": ["src/gribjump/gribjump_c.cc:gribjump_new_request"]}
{"id": "C55", "title": "Python views reconstruct per-range values and masks", "statement": "Given the requested ranges, the Python layer splits the flat value and mask buffers into exactly the per-range vectors, and the boolean mask it computes is true exactly for the present points.", "quantifier": "every list of non-empty ranges and every extraction result of that shape", "why_tests_cant": "All shapes.", "anchors": ["python/pygribjump/src/pygribjump/pygribjump.py:ExtractionResult", "python/pygribjump/src/pygribjump/pygribjump.py:compute_bool_masks"]}
{"id": "C56", "title": "Requests from masks and indices select exactly those points", "statement": "A request built from a boolean mask asks for ranges that cover exactly the true positions, are in increasing order and pass the server's validity check; a request built from an index list asks for exactly those points, one range each.", "quantifier": "every boolean mask with at least one true entry; every index list", "why_tests_cant": "All masks.", "anchors": ["python/pygribjump/src/pygribjump/pygribjump.py:from_mask", "python/pygribjump/src/pygribjump/pygribjump.py:from_indices"]}
{"id": "C57", "title": "Rust file extraction keeps ranges with their message", "statement": "The flattening of per-message range lists in the Rust layer and the unflattening in its C++ bridge are inverse: the library receives for each message exactly the ranges given for it.", "quantifier": "every list of (offset, ranges), including messages with no ranges", "why_tests_cant": "All shapes.", "anchors": ["rust/crates/gribjump/src/request.rs:FileExtraction::to_cxx", "rust/crates/gribjump-sys/cpp/gribjump_bridge.cpp:extract_from_file"]}
{"id": "C58", "title": "Archiving through the plugin indexes every archived GRIB field", "statement": "With the archive plugin active, after a flush every archived field that matches the selection and is a GRIB message has an index entry at its final location, whatever the interleaving between the archiving thread and the background indexing thread.", "quantifier": "every sequence of archive callbacks, every schedule of the two threads", "why_tests_cant": "All schedules of a bounded producer/consumer queue.", "anchors": ["src/gribjump/info/InfoAggregator.cc", "src/gribjump/FDBPlugin.cc"]}
{"id": "C59", "title": "Plugin selection is exact", "statement": "A key is selected for indexing exactly when for every configured key the field carries that key and its value matches the configured pattern.", "quantifier": "every selection configuration and key", "why_tests_cant": "All keys.", "anchors": ["src/gribjump/FDBPlugin.cc:matches", "src/gribjump/FDBPlugin.cc:parseConfig"]}
{"id": "C60", "title": "Public entry points refuse empty arguments", "statement": "Calls with no paths, no requests, or different numbers of offsets and range lists raise a user error and do not touch any data.", "quantifier": "every argument combination", "why_tests_cant": "All combinations.", "anchors": ["src/gribjump/GribJump.cc"]}
{"id": "C61", "title": "Direct file extraction pairs offsets with ranges", "statement": "Extracting from a path at given offsets returns, in order, for each offset the extraction of the message at that offset with the range list given at the same position.", "quantifier": "every path, list of distinct offsets and range lists", "why_tests_cant": "All lists.", "anchors": ["src/gribjump/LocalGribJump.cc:extract"]}
{"id": "C62", "title": "A remote call is equivalent to a local engine call", "statement": "For every request kind (extract, axes, scan, forwarded extract, forwarded scan) a client talking to a server over one connection obtains exactly the answer the server's engine computes, or an exception carrying the server's errors; client and server consume exactly the bytes the other one produced, so that neither side blocks waiting for more nor leaves unread data.", "quantifier": "every request of every kind and every engine answer, including answers with errors and engine exceptions", "why_tests_cant": "Requires agreement of two independently written encoders and decoders for all messages.", "anchors": ["src/gribjump/remote/GribJumpUser.cc:dispatchRequest", "src/gribjump/remote/Request.cc", "src/gribjump/remote/RemoteGribJump.cc"]}
{"id": "C63", "title": "A message description is what eccodes reports", "statement": "For every message of edition 1 or 2 the JumpInfo built from a file position carries, field by field, what eccodes reports about the message at that position (packing, scale factors, reference value, bit width, data and bitmap positions, counts, grid hash, CCSDS parameters); nothing else enters it, its class follows the packing type, and packings other than grid_simple and grid_ccsds are described but refused at extraction.", "quantifier": "every file, position, message and every answer of eccodes, including lookups that raise", "why_tests_cant": "Requires every combination of edition, packing, bitmap and key answers.", "anchors": ["src/gribjump/info/JumpInfo.cc:JumpInfo", "src/gribjump/info/CcsdsInfo.cc:CcsdsInfo", "src/gribjump/info/InfoFactory.cc:build"]}
{"id": "C64", "title": "The CCSDS interval table belongs to the message", "statement": "The interval table stored with a CCSDS message is the one libaec returns for exactly that message's data section, decoded with that message's flags (native format), bit width, block size and interval length; it is empty exactly for constant or empty fields.", "quantifier": "every file, position and message; every codec", "why_tests_cant": "Depends on the contents of memory and on the file's end.", "anchors": ["src/gribjump/info/CcsdsInfo.cc:CcsdsInfo", "src/gribjump/compression/compressors/Ccsds.cc:decode_offsets"]}
{"id": "C65", "title": "Both ways to describe a message agree", "statement": "The JumpInfo built from an in-memory eckit Message equals the JumpInfo built from a handle on the same octets.", "quantifier": "every message", "why_tests_cant": "Two constructors written separately; agreement for all messages is not sampled.", "anchors": ["src/gribjump/info/JumpInfo.cc:JumpInfo(const eckit::message::Message&)", "src/gribjump/info/CcsdsInfo.cc:CcsdsInfo(const eckit::message::Message&)"]}
{"id": "C66", "title": "Describe, then extract: the values of the field", "statement": "For every supported message, anywhere in a file, building its description and extracting any good list of ranges with it succeeds and yields for every point the value that the GRIB definition gives it, or missing where the bitmap says so, with masks that agree.", "quantifier": "every supported message, file, position and good range list", "why_tests_cant": "End-to-end over all fields, bit widths, bitmaps and ranges.", "anchors": ["src/gribjump/info/InfoFactory.cc:build", "src/gribjump/jumper/Jumper.cc:extract"]}
{"id": "C67", "title": "End to end: a batch returns the stored values", "statement": "A local extract call with an info cache in any state reached by earlier lookups, inserts, scans, flushes and clears returns for each request, in request order, the values stored in the message that the catalogue names; and it succeeds whenever the located requests can be served.", "quantifier": "every batch, catalogue answer, set of files and cache history", "why_tests_cant": "Composition of all components over all histories.", "anchors": ["src/gribjump/Engine.cc:extract", "src/gribjump/info/InfoCache.cc:get", "src/gribjump/info/InfoFactory.cc:build", "src/gribjump/jumper/Jumper.cc:extract"]}
{"id": "C68", "title": "Archived, scanned and looked-up descriptions coincide", "statement": "The description indexed when a message is archived equals the description obtained later by scanning the file or by a lookup at the message's offset; a scan yields one description per offset found, in order.", "quantifier": "every message, file and offset", "why_tests_cant": "Over all messages and positions.", "anchors": ["src/gribjump/info/InfoExtractor.cc:extract", "src/gribjump/info/InfoAggregator.cc:add"]}
{"id": "C69", "title": "Concurrent lookups return the right descriptions", "statement": "When several threads of several processes use the info cache at the same time (lookups, inserts, scans, flushes, clears of the same and of different files), every description a lookup returns is that of the message at the offset asked for, in the order asked; a lookup fails only if it met an index file that was being written.", "quantifier": "every number of threads and processes, every program of calls, every schedule of file-system accesses and critical sections", "why_tests_cant": "Interleavings of file-system accesses of several processes cannot be enumerated.", "anchors": ["src/gribjump/info/InfoCache.cc:get", "src/gribjump/info/InfoCache.cc:IndexFile::fromFile", "src/gribjump/info/InfoCache.cc:IndexFile::appendToFile", "src/gribjump/info/InfoCache.cc:IndexFile::write"]}
{"id": "C70", "title": "Concurrent calls do not disturb each other", "statement": "When several threads of several processes use the info cache at the same time, no call has undefined behaviour, and a lookup with distinct offsets of readable messages succeeds when extraction on demand is allowed.", "quantifier": "every number of threads and processes, every program of calls, every schedule", "why_tests_cant": "Races between reader and writer of a file.", "anchors": ["src/gribjump/info/InfoCache.cc:get", "src/gribjump/info/InfoCache.cc:scan", "src/gribjump/info/InfoCache.cc:flush"]}
{"id": "C71", "title": "Inserted records survive", "statement": "Whatever other threads and processes do, a record that was inserted is staged or in the index file, and it is in the index file after the inserting thread's next flush returns.", "quantifier": "every number of threads and processes, every program of calls, every schedule", "why_tests_cant": "Lost updates depend on the schedule.", "anchors": ["src/gribjump/info/InfoCache.cc:insert", "src/gribjump/info/InfoCache.cc:flush", "src/gribjump/info/InfoCache.cc:IndexFile::write"]}
{"id": "C72", "title": "The info cache cannot deadlock, and all calls return", "statement": "As long as some call on the info cache has not returned, some thread can make a step; and under every schedule, fair or not, all calls of all threads return after finitely many steps, in the order of each program.", "quantifier": "every number of threads and processes, every program of calls, every schedule", "why_tests_cant": "Deadlock freedom is a claim about all schedules.", "anchors": ["src/gribjump/info/InfoCache.cc:insert", "src/gribjump/info/InfoCache.cc:flush"]}
{"id": "C73", "title": "The catalogue is asked for every request", "statement": "The one request sent to the catalogue for a batch asks, for each key, for exactly the values that the requests of the batch mention (except year and month where they are dropped), each key once.", "quantifier": "every batch of requests, both settings of ignoreYearMonth", "why_tests_cant": "A value dropped for some combination of keys makes a field unfindable only in that batch.", "anchors": ["src/gribjump/Engine.cc:buildRequestMap"]}
{"id": "C74", "title": "A scan covers every listed field once", "statement": "A scan of requests scans every file that holds a listed field exactly once, with the offsets of its listed fields in ascending order (or the whole file if asked by files), at the server responsible for it if forwarding is on; it reports the number of fields of the scans that succeeded and all errors of those that did not.", "quantifier": "every list of requests, every listing, every server map, every scanning function", "why_tests_cant": "Tests scan a handful of files on one host.", "anchors": ["src/gribjump/Engine.cc:scan", "src/gribjump/Engine.cc:scheduleScanTasks", "src/gribjump/Forwarder.cc:scan", "src/gribjump/Task.cc:FileScanTask"]}
{"id": "C75", "title": "Scans of different files at the same time keep every record", "statement": "When every file is scanned by one thread only and nothing is flushed meanwhile, then under every interleaving every message of a scan that has returned has its true record in the index file, and every record that was there at the start still is.", "quantifier": "every schedule, every number of threads and processes, every set of files and offsets, every initial index", "why_tests_cant": "Tests scan with one worker or do not inspect the index files between steps.", "anchors": ["src/gribjump/info/InfoCache.cc:scan", "src/gribjump/info/InfoCache.cc:FileCache::write", "src/gribjump/Task.cc:FileScanTask"]}
{"id": "C76", "title": "A ranges file is read as written", "statement": "The command line tools read a ranges file in the documented format (one line per request, ranges a-b separated by commas) as exactly the ranges it states, and refuse every other text.", "quantifier": "every text", "why_tests_cant": "The set of malformed texts is unbounded; tests use well-formed files.", "anchors": ["src/gribjump/tools/ToolUtils.cc:parseRangesFile"]}
{"id": "C77", "title": "gribjump-extract prints each result under its request", "statement": "Each extracted result is printed with the request and the ranges it belongs to, the documented options are accepted, and removing the verb from a request does not change what is looked up.", "quantifier": "every request file, every ranges file, every extraction", "why_tests_cant": "Tests run the tool with single-field requests, if at all.", "anchors": ["src/tools/gribjump-extract.cc:execute", "src/gribjump/tools/GribJumpTool.cc:run"]}
{"id": "C78", "title": "gribjump-scan-files scans what it was asked to", "statement": "A list naming a file that does not exist is refused as a whole; otherwise every listed file is scanned, except those that have an index if --skipExisting is given, and none with --dry-run.", "quantifier": "every list of files, every file system state, every configuration of the index location", "why_tests_cant": "Depends on the combination of options, order of files and configuration.", "anchors": ["src/tools/gribjump-scan-files.cc:execute"]}
{"id": "C79", "title": "gribjump-validate accepts exactly agreeing extractions", "statement": "The tool succeeds if and only if each request denotes one stored field and every extracted value equals the value eccodes decodes at that point; the count it prints is the number of values compared.", "quantifier": "every request, ranges, stored field and extraction result", "why_tests_cant": "The tool is itself a test oracle; whether it can pass wrong data is not testable by running it on right data.", "anchors": ["src/tools/gribjump-validate.cc:execute", "src/gribjump/tools/EccodesExtract.cc:eccodesExtract"]}
{"id": "C80", "title": "Options come from the documented sources", "statement": "Every option has the value of its environment variable, else of its resource, else of its key in the configuration file, else the documented default; the implementation (local or remote), the server map and the number of workers follow from them, and values that cannot work are refused.", "quantifier": "every environment, resource set and configuration file", "why_tests_cant": "Combinations of sources for twenty options; statics make them untestable within one process.", "anchors": ["src/gribjump/Config.cc", "src/gribjump/Config.h", "src/gribjump/GribJumpFactory.cc:build", "src/gribjump/remote/WorkQueue.cc:WorkQueue"]}
{"id": "C81", "title": "Options do not change during the life of a process", "statement": "All successful reads of an option in one process give the same value, the one seen by the first of them, whatever happens to the environment and the configuration file in between.", "quantifier": "every sequence of reads, every sequence of environments and files", "why_tests_cant": "Needs all interleavings of reads and changes.", "anchors": ["src/gribjump/Config.cc", "src/gribjump/LibGribJump.cc:config", "src/gribjump/LibGribJump.cc:loadConfig"]}
{"id": "C82", "title": "Index files are where the configuration says", "statement": "With the cache enabled, the index file of a data file is beside it or in the configured directory as cache.shadowfdb and cache.directory say, or the configuration is refused; with the cache disabled no index file is used.", "quantifier": "every configuration, every path", "why_tests_cant": "Tests use the default location.", "anchors": ["src/gribjump/info/InfoCache.cc:InfoCache", "src/gribjump/info/InfoCache.cc:cacheFilePath", "src/gribjump/Config.cc:cacheShadowFdb"]}
{"id": "C83", "title": "The Rust views show the result", "statement": "For every result and every sequence of range() calls, index i shows the values and mask words of range i or nothing; a point is valid exactly if it is present; iter, iter_with_validity, valid_values and total_values follow; composed with extraction, the valid values of a view are the present values of the field in that range.", "quantifier": "every result, every sequence of calls, every field", "why_tests_cant": "The lazily converted masks are state; bit positions at every word boundary and every order of calls cannot be enumerated.", "anchors": ["rust/crates/gribjump/src/result.rs", "rust/crates/gribjump-sys/cpp/gribjump_bridge.cpp:ExtractionResultHandle"]}
{"id": "C84", "title": "Rust reports an exception as the variant of its class", "statement": "Every exception thrown by the library arrives in Rust as the error variant of its class with the text of what(), other std exceptions as Error::Gribjump.", "quantifier": "every exception class and text", "why_tests_cant": "The set of texts is unbounded.", "anchors": ["rust/crates/gribjump-sys/cpp/gribjump_bridge.h:trycatch", "rust/crates/gribjump/src/error.rs"]}
{"id": "C85", "title": "Rust hands requests to the library unchanged", "statement": "Path requests reach the library with every field as set, and a scan by requests scans the fields the request texts denote.", "quantifier": "every request", "why_tests_cant": "Whether the text is read at all is not visible from the returned count of a test catalogue.", "anchors": ["rust/crates/gribjump/src/request.rs", "rust/crates/gribjump-sys/cpp/gribjump_bridge.cpp:scan_requests"]}
{"id": "C86", "title": "Extraction through servers gives the stored values", "statement": "A client of a server gets exactly what a local extraction at the server gives; so each result is the values stored in the message of its request, also when the server hands the files on to the servers that own them, and the values arrive whenever the owners can serve the requests.", "quantifier": "every batch of requests, catalogue, server map, set of servers with any cache history, every field", "why_tests_cant": "Needs several servers, with every distribution of files over them.", "anchors": ["src/gribjump/remote/RemoteGribJump.cc:extract", "src/gribjump/remote/Request.cc:ExtractRequest", "src/gribjump/remote/Request.cc:ForwardedExtractRequest", "src/gribjump/Forwarder.cc:extract", "src/gribjump/LocalGribJump.cc:extract"]}
{"id": "C87", "title": "Extraction by file and offset gives the stored values", "statement": "An extraction by path requests (file, offset, ranges) or by one file with a list of offsets returns, in the order of the requests, the values the message at that offset stores, and does so whenever the requested places are different and each message can be served; also when the requests name the servers to ask.", "quantifier": "every list of path requests over any number of files, every order, path, offset, cache history and field; every server map", "why_tests_cant": "Requires every distribution of requests over files and hosts, paths with the separator characters, and offsets of any size.", "anchors": ["src/gribjump/LocalGribJump.cc:extract", "src/gribjump/Engine.cc:buildRequestURIsMap", "src/gribjump/Lister.cc:fileMapfromPaths", "src/gribjump/ExtractionData.cc:requestString", "src/gribjump/Forwarder.cc:extract"]}
{"id": "C88", "title": "Concurrent workers give the answer of a sequential run", "statement": "When a request has returned, each of its tasks has been executed exactly once and the call's answer is the one the engine gives running the tasks one after the other, whatever the number of workers, the order in which tasks end and the other requests served meanwhile; a request the engine can answer is answered even when other requests fail.", "quantifier": "every number of workers and requests, every schedule, every batch of requests, catalogue and world", "why_tests_cant": "Needs all interleavings of workers and clients.", "anchors": ["src/gribjump/Task.cc:TaskGroup", "src/gribjump/remote/WorkQueue.cc", "src/gribjump/Engine.cc:scheduleExtractionTasks", "src/gribjump/Engine.cc:collectResults", "src/gribjump/Task.cc:FileExtractionTask"]}
{"id": "C89", "title": "Values are right on a busy server", "statement": "With the tasks run by concurrent workers and the info cache used at the same time by other threads and processes that look up, scan and write index files, every result of an answered request is what the message of that request stores; and requests that can be served are answered as long as nobody flushes the cache.", "quantifier": "every schedule of workers and of the users of the cache, every cache content, catalogue, field and request", "why_tests_cant": "Combines two unbounded sets of interleavings.", "anchors": ["src/gribjump/Task.cc", "src/gribjump/info/InfoCache.cc:get", "src/gribjump/Engine.cc:extract", "src/gribjump/remote/WorkQueue.cc"]}
{"id": "C90", "title": "The log context follows the call", "statement": "Every header sent for a call, by the calling thread or by a worker forwarding one of its tasks, carries the context given to that call, whatever other threads call meanwhile and through any number of servers; only JSON is taken at the interfaces, and the Python interface adds the default entries the user has not given.", "quantifier": "every schedule of calling threads and workers, every context, every network of servers", "why_tests_cant": "Contexts live in thread-local variables read by other threads; needs all interleavings.", "anchors": ["src/gribjump/Metrics.h:LogContext", "src/gribjump/Metrics.cc:ContextManager", "src/gribjump/GribJump.cc", "src/gribjump/Task.h:TaskGroup", "src/gribjump/Task.cc:ForwardExtractionTask::executeImpl", "src/gribjump/remote/Protocol.cc:readRequestHeader", "src/gribjump/remote/RemoteGribJump.cc:sendHeader"]}
{"id": "C91", "title": "Every connection leaves one metrics line", "statement": "A connection ends with one metrics line that has the context received, the action, the request number, the number of requests, and the error if and only if the connection ended with an exception.", "quantifier": "every byte stream received, every engine", "why_tests_cant": "The set of malformed streams is unbounded; tests do not read the metrics.", "anchors": ["src/gribjump/Metrics.cc:Metrics::report", "src/gribjump/remote/GribJumpUser.cc:serve", "src/gribjump/remote/Request.cc"]}
{"id": "C92", "title": "Messages go to the configured channel", "statement": "Messages of a kind go to the channel the configuration names for that kind, in capital or small letters, else to the default channel (info in a server, debug otherwise); unknown names are refused.", "quantifier": "every configuration, every kind", "why_tests_cant": "Combinations of kinds, names and process types.", "anchors": ["src/gribjump/LogRouter.cc", "src/gribjump/remote/GribJumpServer.h:GribJumpServer", "src/gribjump/Config.cc:Config"]}
{"id": "C93", "title": "Progress is reported at every tenth", "statement": "While a caller waits for its tasks, a message gives the number of tasks that have ended, for the first and for every further tenth of them.", "quantifier": "every number of tasks, every order in which tasks end or fail and the caller starts to wait", "why_tests_cant": "Depends on the schedule.", "anchors": ["src/gribjump/Task.cc:TaskGroup::notify", "src/gribjump/Task.cc:TaskGroup::waitForTasks"]}
{"id": "C94", "title": "A user is told the error of their own call", "statement": "When a call through the C or Python interface fails, the text reported is the one of the exception that call raised, whatever other threads do.", "quantifier": "every number of threads, every sequence of calls of each, every interleaving", "why_tests_cant": "Depends on the interleaving of threads at a shared string.", "anchors": ["src/gribjump/gribjump_c.cc:LAST_ERROR_STR", "src/gribjump/gribjump_c.cc:tryCatch", "src/gribjump/gribjump_c.cc:gribjump_error_string", "python/pygribjump/src/pygribjump/pygribjump.py:check"]}
{"id": "C95", "title": "A Python user sees the stored values of the field their dict names", "statement": "If a call of extract with dicts and ranges, or with dicts and one mask or list of indices, succeeds, the values and masks read from the result at the position of a dict are those of the field with exactly the keys of that dict, in whatever order they are given; for a dict that names no field, reading the values raises an exception.", "quantifier": "every list of dicts, ranges, masks and indices, every catalogue, field, cache history, local or through a server", "why_tests_cant": "Spans Python, the C interface, the engine and the decoder; key orders and catalogues are unbounded.", "anchors": ["python/pygribjump/src/pygribjump/pygribjump.py:dic_to_request", "python/pygribjump/src/pygribjump/pygribjump.py:ExtractionRequest", "python/pygribjump/src/pygribjump/pygribjump.py:ExtractionIterator", "python/pygribjump/src/pygribjump/pygribjump.py:extract_from_mask", "src/gribjump/gribjump_c.cc:gribjump_extract", "src/gribjump/Engine.cc:extract"]}
{"id": "C96", "title": "Decoded doubles are within a few units in the last place of the GRIB formula", "statement": "In IEEE double arithmetic every value extracted from a supported message that has not overflowed differs from (R + X*2^E)*10^-D by at most (k+5)*2^-53 times (|R| + X*2^E)*10^-D, plus half the smallest positive double, where k is 0 for -22 <= D <= 0, 3 for |D| <= 30 and 22 for |D| <= 300; it does not overflow if the exact values are at most 2^1022; and a value of a present point is never NaN, so that missing points are those with NaN.", "quantifier": "every double R, every packed integer, every binary scale factor from -1021 to 1023 and decimal scale factor from -300 to 300", "why_tests_cant": "Rounding errors depend on all bits of the inputs; tests compare with a tolerance for a few messages.", "anchors": ["src/gribjump/compression/NumericCompressor.h:codes_power", "src/gribjump/compression/compressors/SimplePacking.cc:decode_array", "src/gribjump/compression/compressors/Ccsds.cc"]}
{"id": "C97", "title": "Extraction is undefined only outside a bitmap", "statement": "For every file content and every description of a message, which need not fit the file, and every list of ranges with begin <= end, extraction ends with values or an exception; the only undefined behaviour is that of a request which passes the checks and ends behind the number of points of a field whose bitmap can be read. A single range without bitmap may even be inverted. Descriptions with empty CCSDS intervals or a number of points within 7 of 2^64 are excluded.", "quantifier": "every octet sequence, offset, description, bits per value, list of ranges", "why_tests_cant": "Damaged files and stale descriptions have no bound; sanitizers see only the paths that were run.", "anchors": ["src/gribjump/jumper/Jumper.cc:extract", "src/gribjump/jumper/Jumper.cc:readBitmap", "src/gribjump/jumper/Jumper.cc:calculateMaskedIntervals", "src/gribjump/compression/NumericCompressor.h:decode", "src/gribjump/compression/compressors/SimplePacking.cc", "src/gribjump/compression/compressors/Aec.cc:decode"]}
{"id": "C98", "title": "A call is undefined only if one of its requests is outside a bitmap", "statement": "If a call that extracts by requests, by path requests or directly from a file has undefined behaviour, one of its requests has an inverted range or ends behind the bitmap of the message at the place it is located at; so a call whose ranges are within the points of their fields never has, whatever the files, the catalogue, the state of the cache and the other requests are.", "quantifier": "every batch, catalogue, cache history, file content and configuration", "why_tests_cant": "Needs all combinations of damaged files, catalogues and caches.", "anchors": ["src/gribjump/Engine.cc:extract", "src/gribjump/Task.cc:FileExtractionTask", "src/gribjump/Task.cc:InefficientFileExtractionTask", "src/gribjump/LocalGribJump.cc:extract", "src/gribjump/info/InfoCache.cc:get", "src/gribjump/Lister.cc:fileMap"]}
{"id": "C99", "title": "The numbers at the end of a whole call", "statement": "In IEEE double arithmetic, if an extraction by requests or by a Python user (ranges or mask) succeeds, every number it shows for a field that is stored with simple packing and at least one bit per value, or with decimal scale factor 0, is NaN exactly at the missing points and otherwise within a few units in the last place (bound of C96) of the GRIB formula for the packed integer stored for that grid point; it is finite if the exact values stay a factor 4 below the largest double.", "quantifier": "every catalogue, file, cache history, batch, dict, ranges or mask, scale factors with normal powers", "why_tests_cant": "Combines grouping, caching, range merging, bitmap and rounding; tests compare single cases with eccodes, which rounds in the same way.", "anchors": ["src/gribjump/compression/compressors/SimplePacking.cc", "src/gribjump/compression/compressors/Ccsds.cc", "src/gribjump/Engine.cc:extract", "src/gribjump/LocalGribJump.cc:extract", "python/pygribjump/src/pygribjump/pygribjump.py:extract"]}
{"id": "C100", "title": "A scanned catalogue is served without describing messages again", "statement": "Once scans of the listed messages have succeeded, every process that starts with the resulting index files extracts requests for these messages and returns the stored values, even with extraction on demand switched off, and then without asking eccodes about any message. Records stay in the index files through every later lookup, insertion, scan, appending flush and clearing of the memory cache.", "quantifier": "every set of scan jobs, every initial index, every history of calls in any later process, every catalogue, batch and configuration without forwarding, every message content", "why_tests_cant": "Tests scan one file and extract in the same process with extraction on demand enabled, which hides a missing or wrong record.", "anchors": ["src/gribjump/Engine.cc:scan", "src/gribjump/Task.cc:FileScanTask", "src/gribjump/info/InfoCache.cc:scan", "src/gribjump/info/InfoCache.cc:get", "src/gribjump/Engine.cc:extract"]}
{"id": "C101", "title": "Axes reach the user as the catalogue has them", "statement": "A user who asks for the axes of a request gets a mapping with exactly the keys of the catalogue's answer and, under each key, exactly its values, each once. This holds for Python and Rust, with a library on the same machine and with one that asks a server, so all these views agree. What fails in the catalogue, and a text that is not exactly one request, becomes an exception. A dict that is not ASCII, a level that is not an int, and an empty dict are refused. Reading the answer stays inside the arrays.", "quantifier": "every catalogue answer that is a map of sets of ASCII texts, every order in which hash sets are iterated at every copy, every dict, level and request text", "why_tests_cant": "Tests compare axes of a few small catalogues, where hash sets of one or two values have only one or two orders and no key is missing.", "anchors": ["src/gribjump/Lister.cc:FDBLister::axes", "src/gribjump/gribjump_c.cc:gribjump_new_axes", "src/gribjump/remote/Protocol.cc:encodeAxesReply", "python/pygribjump/src/pygribjump/pygribjump.py:axes", "rust/crates/gribjump-sys/cpp/gribjump_bridge.cpp:axes"]}
{"id": "C102", "title": "Comparing infos compares everything", "statement": "For two infos whose class is that of their packing, operator== is true exactly if they have the same class and the same value in every field, including the CCSDS parameters and every entry of the offset table. It is symmetric. Every info made from a message has the class of its packing. An info that was written and read again is equal to the first if its reference value is equal to itself, that is, if it is not NaN.", "quantifier": "all infos whose class is that of their packing, all equality tests of doubles, all messages and all eccodes answers for them", "why_tests_cant": "A field that is forgotten in a comparison shows only for two infos that differ in just that field.", "anchors": ["src/gribjump/info/JumpInfo.cc:JumpInfo::equals", "src/gribjump/info/CcsdsInfo.cc:CcsdsInfo::equals"]}
{"id": "C103", "title": "The tools gribjump-dump-info, gribjump-info and gribjump-scan", "statement": "gribjump-dump-info shows, for every index file in the order given, every record once and in the order of the offsets; a missing file ends it after everything before was shown. gribjump-info shows the chosen values, or all with labels if all or none are chosen. gribjump-scan scans the requests of all arguments, or of the file, in one call, refuses both together, and takes a missing file for an empty one. False: dumping is defined for every index file (a file torn by a crash has a null record), and byfiles is true by default, as the help text says.", "quantifier": "all disks, lists of files, options, arguments, parsers and scans", "why_tests_cant": "The tools are run in scripts, and their tests do not use torn files or compare the default of an option with its help text.", "anchors": ["src/tools/gribjump-dump-info.cc", "src/tools/gribjump-info.cc", "src/tools/gribjump-scan.cc:Scan::execute", "src/gribjump/info/InfoCache.cc:IndexFile::print"]}
{"id": "C104", "title": "Users of the Rust, C and C++ interfaces see the field they named", "statement": "A user who makes requests, calls extract and loops over the results sees at the position of each request the points of the field it names: values, validity, the values of the valid points alone and their number in Rust; arrays of values and masks of the length asked for in C; the result itself in C++. A request that names no field gives no ranges, or an error when values are read in C, and only where missing fields are allowed. A Rust request for several fields gives one result for each field of its expansion. Requests by file and offset, and for messages of one file, give the points of the message at that place. The loops neither drop nor add results and errors of the library arrive.", "quantifier": "every list of requests, every catalogue whose entries have plain and distinct keys, every state of the caches, every supported message, every answer of the library on this machine or of a server", "why_tests_cant": "Tests loop over the results of a few fixed requests of the same size, so a wrong position, a wrong length or a swapped mask shows only by chance.", "anchors": ["rust/crates/gribjump/src/iterator.rs:next", "rust/crates/gribjump/src/handle.rs:extract", "rust/crates/gribjump-sys/cpp/gribjump_bridge.cpp:extract_mars", "src/gribjump/gribjump_c.cc:gribjump_result_values", "src/gribjump/GribJump.cc:extract"]}
{"id": "C105", "title": "Forwarded requests and scans give the answer of a sequential run under every schedule", "statement": "When a forwarded request has returned, its answer is the one the engine gives asking the servers one after the other, whatever the order in which the map gives the servers, the number of workers, the order in which servers answer and the other requests served meanwhile; the values are those stored by the owners of the files. The counter of a scan, local or forwarded, ends with the total of the sequential scan and the same errors. A forwarded request or scan without errors returns under every schedule.", "quantifier": "every number of workers and requests, every schedule, every order of the servers, every batch of requests or files, every catalogue, server map and answer of the servers", "why_tests_cant": "Needs all interleavings of workers, clients and servers.", "anchors": ["src/gribjump/Forwarder.cc:extract", "src/gribjump/Forwarder.cc:scan", "src/gribjump/Task.cc:ForwardExtractionTask", "src/gribjump/Task.cc:ForwardScanTask", "src/gribjump/Task.cc:FileScanTask", "src/gribjump/Engine.cc:scheduleScanTasks"]}
{"id": "C106", "title": "What a peer can make a server or a client do", "statement": "Nothing a server receives makes its behaviour undefined. (False; it is defined for every stream except: a list of ranges announced longer than it is, ranges that are inverted or end behind the bitmap of their message, and a forwarded file without items. A client's behaviour is defined for every reply without a vector announced longer than it is or cut into more than it holds. Behind a forwarding server only the deadly ranges remain.)", "quantifier": "every sequence of tokens, every server, catalogue, file content and configuration; every deployment of servers", "why_tests_cant": "Needs all malformed and all well-formed requests and replies.", "anchors": ["src/gribjump/remote/GribJumpUser.cc:serve", "src/gribjump/remote/Protocol.cc:decodeForwardExtractRequest", "src/gribjump/ExtractionData.cc:decodeRanges", "src/gribjump/ExtractionData.cc:decodeVectorVector", "src/gribjump/ExtractionData.cc:decodeMask", "src/gribjump/Engine.cc:scheduleExtractionTasks", "src/gribjump/Forwarder.cc:extract"]}
{"id": "C107", "title": "A status stored before its report changes nothing", "statement": "Task::notify and Task::notifyError store the task's status before they enter the group's critical section, and waiting threads may wake up without a notification. Whatever runs in between, the executions are those in which storing and reporting are one step: same order in which tasks end, same answers; when waitForTasks has returned all statuses are final and nobody touches the group again; no destroyed object is used; requests complete under the same conditions.", "quantifier": "any number of workers, requests and tasks, every interleaving of stores, reports, cancellations, wake-ups and all other steps", "why_tests_cant": "The window between the store and the lock is a few instructions wide.", "anchors": ["src/gribjump/Task.cc:notify", "src/gribjump/Task.cc:notifyError", "src/gribjump/Task.cc:cancel", "src/gribjump/Task.cc:waitForTasks", "src/gribjump/remote/WorkQueue.cc:pop"]}
{"id": "C108", "title": "Every loop over a Python iterator pairs results with their own shapes", "statement": "However a Python program loops over the iterator that extract returned (several loops, loops left early, next on several iterators in turn, dump_values in between) it gets each result at most once, in the order of the requests, and with the shape of its own request.", "quantifier": "every list of results and shapes, every program that makes loops over one iterator and advances them", "why_tests_cant": "Tests iterate once.", "anchors": ["python/pygribjump/src/pygribjump/pygribjump.py:ExtractionIterator.__iter__", "python/pygribjump/src/pygribjump/pygribjump.py:ExtractionSingleIterator.__iter__", "python/pygribjump/src/pygribjump/pygribjump.py:dump_values"]}
{"id": "C109", "title": "A Python result object gives the same answer every time", "statement": "Reading the values or masks of a result object gives the same outcome whenever it is done, in whatever order and however often.", "quantifier": "every result, shape and sequence of accesses", "why_tests_cant": "Tests read once, from results that fit.", "anchors": ["python/pygribjump/src/pygribjump/pygribjump.py:_load_values", "python/pygribjump/src/pygribjump/pygribjump.py:_load_masks", "python/pygribjump/src/pygribjump/pygribjump.py:compute_bool_masks"]}
{"id": "C110", "title": "Garbage collection never frees a C object in use, and frees each once", "statement": "Whatever a Python program does with handles, requests, iterators, results, views and axes, in however many threads and with garbage collection in any order, no C object is used after it was freed, none is freed twice, and each is freed once nothing refers to it.", "quantifier": "every program over the interface, every interleaving of its threads with running calls and with the collector", "why_tests_cant": "Depends on when the collector runs.", "anchors": ["python/pygribjump/src/pygribjump/pygribjump.py:ExtractionIterator", "python/pygribjump/src/pygribjump/pygribjump.py:ExtractionResult", "python/pygribjump/src/pygribjump/pygribjump.py:axes", "src/gribjump/gribjump_c.cc:gribjump_extract", "src/gribjump/gribjump_c.cc:gribjump_extractioniterator_next"]}
{"id": "C111", "title": "Threads can share a Rust handle", "statement": "Whatever threads do with a Rust handle, its clones, and the iterators, results and views they get, in any interleaving: no two threads are inside one C++ handle; nothing is used or freed after it is gone and no memory is written while a view refers to it; every call can be finished, also after failed ones; the answers are those of the same calls made one after another, each thread gets the answers to its own calls in order, results are taken in order and once, and views show their range as long as they exist.", "quantifier": "every program over the interface, every number of threads, every interleaving", "why_tests_cant": "Depends on the interleaving of threads and on when values are dropped.", "anchors": ["rust/crates/gribjump/src/handle.rs:GribJump", "rust/crates/gribjump/src/iterator.rs:ExtractionIterator", "rust/crates/gribjump/src/result.rs:range", "rust/crates/gribjump-sys/cpp/gribjump_bridge.cpp:try_convert_masks", "rust/crates/gribjump-sys/cpp/gribjump_bridge.cpp:next"]}
{"id": "C112", "title": "Users of path requests and of extract_single see the fields they name", "statement": "A Python or C user of requests by file and offset sees, at the position of each request, the values and masks of the message at that offset, range by range; requests without ranges, with empty or reversed ranges or with numbers C cannot hold raise before the library is called. A Python user of extract_single sees one result for every field the request stands for, in order, with the values and masks of that field. The C functions hand over all requests in order.", "quantifier": "every list of requests, every arrangement of files and catalogue, every answer of the library", "why_tests_cant": "Numbers, texts and arrays pass through three languages; the result depends on every message and range.", "anchors": ["python/pygribjump/src/pygribjump/pygribjump.py:PathExtractionRequest", "python/pygribjump/src/pygribjump/pygribjump.py:ExtractionIteratorFromPath", "python/pygribjump/src/pygribjump/pygribjump.py:ExtractionSingleIterator", "src/gribjump/gribjump_c.cc:gribjump_extract_from_paths", "src/gribjump/gribjump_c.cc:gribjump_new_request_from_path"]}
{"id": "C113", "title": "To its users a deployment of many servers, or a busy one, is one machine with all the files", "statement": "A process that forwards requests to the servers which keep the fields, a client of a server that forwards, and a machine whose workers and cache are shared by many requests at the same time all answer rightly: every answer holds, at the position of each request, the values and masks stored in the file as the server that keeps it has it. So every guarantee given to Python, C, C++ and Rust users of one machine holds for users of such a deployment. A Python user of such a front gets the arrays of every field that its server can serve.", "quantifier": "every number and arrangement of servers, every server map, every listing, request and interleaving of tasks", "why_tests_cant": "Needs several servers with different files, caches and schedules; one wrong merge of positions shows only for some placements.", "anchors": ["src/gribjump/Forwarder.cc", "src/gribjump/Engine.cc:Engine::scheduleExtractionTasks", "src/gribjump/remote/RemoteGribJump.cc", "src/gribjump/Task.cc:TaskGroup", "python/pygribjump/src/pygribjump/pygribjump.py:GribJump.extract"]}
{"id": "C114", "title": "Factories give what was registered, from the start of a program to its exit", "statement": "In whatever order static objects are constructed, a program starts and exits without an error exactly if no factory meets a name twice and every static object of a client uses, in its constructor and in its destructor, only what was registered before it. Then every lookup gives what the builder of that name makes, or for descriptions of unknown packings what the builder 'unsupported' makes. The seven builders of the library always start and exit, and then choose the jumper, description and implementation that C01, C63 and C80 assume. Threads that look up and make in any interleaving, while builders are added and none is removed, make what they found.", "quantifier": "every list and order of static objects, every name, every interleaving of lookups, loads and uses by any number of threads", "why_tests_cant": "The order of static construction across files is chosen by the linker; a test sees one order, and exit-time errors appear after the test has passed.", "anchors": ["src/gribjump/jumper/JumperFactory.cc", "src/gribjump/info/InfoFactory.cc", "src/gribjump/GribJumpFactory.cc", "src/gribjump/jumper/SimpleJumper.cc:52", "src/gribjump/jumper/CcsdsJumper.cc:60", "src/gribjump/info/SimpleInfo.cc:42", "src/gribjump/info/CcsdsInfo.cc:125", "src/gribjump/info/UnsupportedInfo.cc:43", "src/gribjump/LocalGribJump.cc:145", "src/gribjump/remote/RemoteGribJump.cc:168"]}
{"id": "C115", "title": "The Python package loads in every order, refuses old libraries and can be tried again", "statement": "Importing pygribjump or any of its modules, any number of times and in any order, fails only if the library is missing, cannot be initialised or is too old; a failed import leaves nothing that spoils a later one, and as soon as one import works every name of the interface is there with the version of package and library. The library is refused exactly if it is older than the oldest one allowed, and the warning is given exactly if major, minor or patch differ. gribjump_version_int orders versions as their numbers do. The library object cannot be made a second time.", "quantifier": "every sequence of imports, every state of the machine at each of them, every version", "why_tests_cant": "The modules import each other, so the result depends on which is entered first and on what an earlier failed import left in sys.modules; tests import once, with a matching library.", "anchors": ["python/pygribjump/src/pygribjump/__init__.py", "python/pygribjump/src/pygribjump/_version.py", "python/pygribjump/src/pygribjump/pygribjump.py:PatchedLib.__init__", "src/gribjump/gribjump_c.cc:gribjump_initialise", "src/gribjump/gribjump_version.c.in:gribjump_version_int"]}
