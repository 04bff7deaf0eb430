{"id": "C01", "title": "A store behaves like an insert-only map", "statement": "Starting from create() and open(), every sequence of insert, fetch, flush, close and re-open calls returns exactly the results an in-memory insert-only map would return: insert succeeds iff the key is absent, fetch yields exactly the bytes given to the successful insert of that key, and every other fetch reports key_not_found.", "quantifier": "every hash function, every valid key size, block size, load factor, salt, uid and appnum, every finite history of calls with arbitrary keys and non-empty values, flushes at arbitrary points", "why_tests_cant": "Tests run finitely many histories with one hasher; collisions, spills, splits and flush timing interact in unboundedly many ways.", "anchors": ["include/nudb/impl/basic_store.ipp: open, close, fetch, insert, commit, split, load", "include/nudb/impl/create.ipp: create"]}
{"id": "C02", "title": "Duplicate inserts are refused without side effects", "statement": "insert of a key already present (in memory, being written or on disk) reports key_exists and leaves the stored value and every other key unchanged.", "quantifier": "every reachable store state, every key and every value", "why_tests_cant": "The key may be in any of four places and hide behind any number of colliding hashes and spill records.", "anchors": ["include/nudb/impl/basic_store.ipp: insert, exists"]}
{"id": "C03", "title": "No false hits on hash collisions", "statement": "fetch of a key that was never inserted reports key_not_found, even if its hash equals that of any number of stored keys.", "quantifier": "every hash function including constant ones, every store contents, every key", "why_tests_cant": "Good hashers never collide in tests, so the comparison path is essentially untested.", "anchors": ["include/nudb/impl/basic_store.ipp: fetch"]}
{"id": "C04", "title": "Flushing is invisible", "statement": "Writing the in-memory batch to the files (background flush or explicit) at any moment does not change the result of any later fetch or insert.", "quantifier": "every reachable store, every batch of pending inserts, every position in the history at which a flush happens", "why_tests_cant": "Flush times are chosen by a background thread; tests see a handful of schedules.", "anchors": ["include/nudb/impl/basic_store.ipp: flush, commit"]}
{"id": "C05", "title": "Close and re-open preserve the contents", "statement": "After close() succeeds, open() on the same three paths succeeds with the same hash function and the re-opened store contains exactly the same key/value pairs; the log file is gone after close.", "quantifier": "every reachable store and every number of close/open cycles", "why_tests_cant": "A byte misplaced by a rare split or spill only shows after re-open on specific contents.", "anchors": ["include/nudb/impl/basic_store.ipp: close, open", "include/nudb/impl/recover.ipp: recover"]}
{"id": "C06", "title": "A crash during a flush loses or keeps the whole batch", "statement": "If the program or machine stops at any point during a flush, the next recover() succeeds and leaves data and key files byte-for-byte equal either to their contents before the flush or to their contents after the complete flush.", "quantifier": "every store state, every batch, every instant between two I/O operations, every loss of unsynced data in data/key files (arbitrary garbage in unsynced regions), log appends surviving as a prefix", "why_tests_cant": "The number of crash points times the possible on-disk images is unbounded; tests inject failures with a single survivor image per point.", "anchors": ["include/nudb/impl/basic_store.ipp: commit", "include/nudb/impl/recover.ipp: recover"]}
{"id": "C07", "title": "A finished flush is durable", "statement": "Once a flush has returned without error, every key written by it and by earlier flushes is found with its value after any later crash followed by recover() and open().", "quantifier": "every history of flushes and crashes", "why_tests_cant": "Durability depends on the order of sync calls; tests never lose the page cache.", "anchors": ["include/nudb/impl/basic_store.ipp: commit", "include/nudb/impl/recover.ipp: recover"]}
{"id": "C08", "title": "Recovery can be interrupted and repeated", "statement": "If recover() itself is stopped at any point, running it again (any number of times, with any number of interruptions) finally produces the same files as one uninterrupted run.", "quantifier": "every crash image of a flush, every interruption point of recover, any number of interruptions", "why_tests_cant": "Nested crash points multiply; tests only cover a single failure inside recover.", "anchors": ["include/nudb/impl/recover.ipp: recover"]}
{"id": "C09", "title": "Recovering a clean database changes nothing", "statement": "recover() on a database without log file, or with a log shorter than its header, succeeds, leaves data and key file untouched and removes the log; a second recover() is a no-op.", "quantifier": "every contents of the three files with an absent or short log", "why_tests_cant": "Quantifies over all file contents.", "anchors": ["include/nudb/impl/recover.ipp: recover"]}
{"id": "C10", "title": "The data file is append-only", "statement": "A flush never changes a byte already in the data file; it only appends. Hence offsets handed out earlier stay valid for ever.", "quantifier": "every store, every batch, success or failure, every point in time during the flush", "why_tests_cant": "Overwrites would only be seen if a test re-read the affected record.", "anchors": ["include/nudb/impl/basic_store.ipp: commit, split", "include/nudb/detail/bulkio.hpp: bulk_writer"]}
{"id": "C11", "title": "Linear hashing addresses every bucket consistently", "statement": "For every hash and bucket count the bucket index is below the bucket count, and increasing the bucket count by one moves a hash either nowhere or from the one bucket being split to the new bucket.", "quantifier": "all 48-bit hashes, all bucket counts with their power-of-two modulus", "why_tests_cant": "2^48 hashes times unbounded bucket counts.", "anchors": ["include/nudb/detail/bucket.hpp: bucket_index", "include/nudb/impl/basic_store.ipp: commit"]}
{"id": "C12", "title": "Bucket splits lose and duplicate nothing", "statement": "Growing the key file by one bucket keeps every stored entry reachable exactly once, in the bucket its hash designates.", "quantifier": "every well-formed table, every set of entries including full buckets with spill chains of any length", "why_tests_cant": "Splitting chains that respill during the split needs specific collisions that random tests do not produce.", "anchors": ["include/nudb/impl/basic_store.ipp: split"]}
{"id": "C13", "title": "Overflow chains are finite and complete", "statement": "Entries which do not fit in a bucket are kept in spill records in the data file; every chain of spill records is acyclic and ends, so every lookup terminates, and entries in it are found.", "quantifier": "every reachable database, chains of any length", "why_tests_cant": "Termination and acyclicity are properties of all reachable states.", "anchors": ["include/nudb/detail/bucket.hpp: maybe_spill", "include/nudb/impl/basic_store.ipp: fetch, exists"]}
{"id": "C14", "title": "In-bucket search and update are exact", "statement": "Searching a sorted bucket finds the first entry whose hash is not smaller; insertion puts the entry there keeping order and all other entries; erasing removes exactly that entry; nothing outside the bucket's block is touched.", "quantifier": "every block size, every sorted bucket contents, every hash", "why_tests_cant": "Binary search and memmove boundary cases over all sizes up to 3640 entries.", "anchors": ["include/nudb/detail/bucket.hpp: lower_bound, insert, erase, at"]}
{"id": "C15", "title": "Integer fields survive a write/read round trip", "statement": "Every 16, 24, 32, 48 and 64 bit value written to a file or buffer is read back unchanged and its byte image is the big-endian one on every platform.", "quantifier": "all values of each width", "why_tests_cant": "2^64 values.", "anchors": ["include/nudb/detail/field.hpp: read, write, readp"]}
{"id": "C16", "title": "File headers survive a write/read round trip", "statement": "The header written for a data, key or log file is read back field by field unchanged, and the bucket count, capacity and modulus derived from the file are the ones the writer used.", "quantifier": "all header values within their field widths, all block sizes, all file sizes", "why_tests_cant": "Unbounded value space.", "anchors": ["include/nudb/detail/format.hpp: read, write, bucket_capacity, ceil_pow2"]}
{"id": "C17", "title": "Mismatched files are refused", "statement": "open(), recover() and verify() refuse a key or log file whose type, version, uid, application number, key size, salt/hash function or block size does not match, with the documented error, and a refused open leaves data and key file unchanged.", "quantifier": "every combination of header field values and file contents", "why_tests_cant": "All combinations of wrong fields.", "anchors": ["include/nudb/detail/format.hpp: verify", "include/nudb/impl/basic_store.ipp: open"]}
{"id": "C18", "title": "An I/O error is final until re-open and never corrupts", "statement": "If any I/O operation of a flush fails, all later insert, fetch and flush calls report that same error, close() reports it and keeps the log, and a subsequent recover() brings the files back to the state before the failed flush (or after the complete one).", "quantifier": "every position at which an I/O operation fails, with any partial effect of a failing write", "why_tests_cant": "Every operation times every partial effect.", "anchors": ["include/nudb/impl/basic_store.ipp: commit, flush, close, insert, fetch"]}
{"id": "C19", "title": "visit enumerates exactly the stored pairs", "statement": "visit() on a closed database calls the callback exactly once for every stored key/value pair, in insertion-flush order, with the right bytes, and stops at the first callback error.", "quantifier": "every reachable database, any number of spill records between values", "why_tests_cant": "All contents and all read-buffer boundary alignments.", "anchors": ["include/nudb/impl/visit.ipp: visit", "include/nudb/detail/bulkio.hpp: bulk_reader"]}
{"id": "C20", "title": "rekey rebuilds an equivalent key file", "statement": "After rekey() of a data file, a store opened on data file and new key file finds exactly the values found before.", "quantifier": "every database, every block size, load factor, item count and buffer size accepted", "why_tests_cant": "All combinations of pass counts and spill behaviour.", "anchors": ["include/nudb/impl/rekey.ipp: rekey"]}
{"id": "C21", "title": "An interrupted rekey does not damage the data file", "statement": "If rekey() is stopped at any point, recover() restores the data file byte-for-byte to its contents before rekey and removes the partial key file.", "quantifier": "every interruption point", "why_tests_cant": "All crash points.", "anchors": ["include/nudb/impl/rekey.ipp: rekey", "include/nudb/impl/recover.ipp: recover"]}
{"id": "C22", "title": "verify accepts every healthy database", "statement": "verify() succeeds, in both algorithms, on every database produced by the API and reports the true number of keys, value bytes and spill records.", "quantifier": "every reachable database, every buffer size", "why_tests_cant": "All contents; the fast path depends on buffer size and bucket ranges.", "anchors": ["include/nudb/impl/verify.ipp: verify_normal, verify_fast"]}
{"id": "C23", "title": "verify success means every value can be fetched", "statement": "If verify() succeeds, every data record of the data file can be fetched under its key (up to duplicate keys), i.e. no key is orphaned.", "quantifier": "every data and key file contents, including corrupted ones", "why_tests_cant": "Quantifies over all corruptions.", "anchors": ["include/nudb/impl/verify.ipp: verify_normal"]}
{"id": "C24", "title": "Concurrent fetch and insert are linearizable with the background flush", "statement": "In every interleaving of any number of fetching threads, inserting threads and the flush thread, each call returns what it would return if executed atomically at some instant between its start and end.", "quantifier": "every number of threads, every interleaving of their steps", "why_tests_cant": "Schedules are exponentially many and timing dependent.", "anchors": ["include/nudb/impl/basic_store.ipp: fetch, insert, commit", "include/nudb/detail/gentex.hpp: gentex, genlock"]}
{"id": "C25", "title": "Key file blocks are not overwritten under a reader", "statement": "While a fetch that has decided to read a bucket from the key file is in progress, no flush writes that bucket; the flush waits exactly for those readers that could be affected and never for later ones.", "quantifier": "every interleaving of readers and flushes", "why_tests_cant": "Race windows are not reproducible.", "anchors": ["include/nudb/detail/gentex.hpp: start, finish, lock_gen, unlock_gen"]}
{"id": "C26", "title": "The background scheduler flushes every open store and never a closed one", "statement": "Each open store is in exactly one place: on the waiting list, on the flushing list, or held by the one thread that is flushing it; every store waiting when its turn comes is flushed (or closed) before any thread finds nothing left to flush; after close() of a store returns the context never touches it again until it is reopened; no waiting thread misses its wake-up.", "quantifier": "every interleaving of open, close, and any number of run threads", "why_tests_cant": "Use-after-close races are schedule dependent.", "anchors": ["include/nudb/impl/context.ipp: run, flush, flush_one, insert, erase"]}
{"id": "C27", "title": "Pending-insert memory is never shared between values", "statement": "Memory blocks handed out for pending inserts and cached buckets are pairwise disjoint, lie inside their slab, are aligned, and stay valid until the batch is cleared.", "quantifier": "every sequence of allocations (of up to 2^64-32 bytes, so that rounding and header fit size_t), clears, swaps, moves and size adjustments, wherever operator new puts the blocks and whenever it fails", "why_tests_cant": "All sequences of sizes.", "anchors": ["include/nudb/detail/arena.hpp: alloc, clear, periodic_activity"]}
{"id": "C28", "title": "The pending-insert pool is a faithful map", "statement": "The pool finds exactly the key/value pairs inserted since the last clear, keeps a correct byte count and enumerates them in ascending key order; swapping exchanges contents completely.", "quantifier": "every sequence of inserts, finds, swaps and clears", "why_tests_cant": "All sequences.", "anchors": ["include/nudb/detail/pool.hpp: insert, find, clear, swap, data_size"]}
{"id": "C29", "title": "The hash function is the published XXH64 on every platform and input", "statement": "xxhasher computes the same 64-bit value for the same seed and bytes whatever the address alignment of the input, equal to the XXH64 definition, for any length.", "quantifier": "all seeds, all inputs, all alignments", "why_tests_cant": "All inputs and alignments.", "anchors": ["include/nudb/detail/xxhash.hpp: XXH64", "include/nudb/xxhasher.hpp"]}
{"id": "C30", "title": "create validates its arguments and yields an empty, openable database or nothing", "statement": "create() with accepted arguments produces three files which open() accepts as an empty store with the given uid, appnum, salt, key size and block size; with rejected arguments, or if a file exists, no file is created or changed and files created earlier in the call are removed.", "quantifier": "all argument values, all pre-existing file combinations", "why_tests_cant": "All combinations of arguments.", "anchors": ["include/nudb/impl/create.ipp: create"]}
{"id": "C31", "title": "The table grows in proportion to the number of inserts", "statement": "After any number n of flushed inserts in one session the number of buckets exceeds the initial number by exactly floor((thresh/2 + 65536*n)/thresh), so the average bucket load stays at most the configured load factor.", "quantifier": "every n, every way of grouping inserts into flushes", "why_tests_cant": "All n and all groupings.", "anchors": ["include/nudb/impl/basic_store.ipp: commit, open"]}
{"id": "C32", "title": "Buffered reading and writing equal direct access", "statement": "Reading a file range through the buffered reader yields exactly the bytes of that range in order and fails with short_read iff the range is exceeded; writing through the buffered writer and flushing yields the same file as writing each piece directly, and reported offsets are the final positions.", "quantifier": "every sequence of piece sizes, every buffer size, every file", "why_tests_cant": "All alignments of pieces and buffer boundaries.", "anchors": ["include/nudb/detail/bulkio.hpp: bulk_reader, bulk_writer"]}
{"id": "C33", "title": "Short and interrupted system calls are handled", "statement": "A file read or write either transfers exactly the requested bytes or reports an error, whatever sequence of partial transfers and EINTR the operating system produces.", "quantifier": "every sequence of system call results", "why_tests_cant": "Kernel behaviours cannot be enumerated by tests.", "anchors": ["include/nudb/impl/posix_file.ipp: read, write"]}
{"id": "C34", "title": "The key file always consists of whole zero-padded blocks", "statement": "After create() and after every flush, the key file's size is (buckets+1)*block_size and every block is a sorted bucket padded with zeros with at most capacity entries; no stale memory reaches the file.", "quantifier": "every reachable database, any contents of uninitialised memory", "why_tests_cant": "Stale memory contents are not controllable by tests.", "anchors": ["include/nudb/detail/bucket.hpp: write, read, clear", "include/nudb/impl/basic_store.ipp: commit"]}
{"id": "C35", "title": "Files opened for append are only written at their end", "statement": "Every write a flush issues to the data and log files starts exactly at the current end of file, so the result does not depend on whether the system honours the offset or appends.", "quantifier": "every flush", "why_tests_cant": "Depends on the OS; the offset is ignored on Linux so tests cannot see a wrong one.", "anchors": ["include/nudb/impl/basic_store.ipp: commit", "include/nudb/detail/bulkio.hpp: bulk_writer", "include/nudb/impl/posix_file.ipp: write, flags"]}
{"id": "C36", "title": "A damaged log is refused without harm", "statement": "recover() on a log whose complete header does not match data and key file reports the documented error and leaves all three files as they were.", "quantifier": "all log contents with a complete header that mismatches", "why_tests_cant": "All contents.", "anchors": ["include/nudb/impl/recover.ipp: recover", "include/nudb/detail/format.hpp: verify"]}
{"id": "C37", "title": "The power-of-two modulus is the least one", "statement": "The modulus used for a bucket count is the smallest power of two not below it, for every bucket count up to 2^63.", "quantifier": "all bucket counts", "why_tests_cant": "2^63 values.", "anchors": ["include/nudb/detail/format.hpp: ceil_pow2"]}
{"id": "C38", "title": "visit reports truncated files as errors", "statement": "visit() on a data file whose last record is cut short reports short_read and does not throw or read out of range.", "quantifier": "every truncation point of every data file", "why_tests_cant": "All truncation points.", "anchors": ["include/nudb/impl/visit.ipp: visit"]}
{"id": "C39", "title": "verify detects duplicate keys", "statement": "verify() reports an error for a data file holding the same key in two records, as its documentation promises.", "quantifier": "all data files", "why_tests_cant": "All contents.", "anchors": ["include/nudb/impl/verify.ipp: verify_normal", "include/nudb/error.hpp: duplicate_value"]}
{"id": "C40", "title": "Recovery tolerates any torn log", "statement": "Whatever contents the unsynced part of the log file has after a power loss, recover() does not destroy data flushed earlier.", "quantifier": "every contents of the unsynced log region", "why_tests_cant": "All contents.", "anchors": ["include/nudb/impl/recover.ipp: recover", "include/nudb/impl/basic_store.ipp: commit"]}
{"id": "C41", "title": "visit progress is monotone and bounded", "statement": "The amounts visit() reports to its progress callback never decrease, never exceed the reported total, and the total is always the size of the data file.", "quantifier": "all databases reached by a history of calls, all callbacks", "why_tests_cant": "All data files and all stopping points of the callback.", "anchors": ["include/nudb/impl/visit.ipp: visit", "include/nudb/visit.hpp"]}
{"id": "C42", "title": "rekey progress is monotone and bounded", "statement": "The amounts rekey() reports to its progress callback never decrease and never exceed the reported total, and the total never changes.", "quantifier": "all databases reached by a history of calls, all rekey arguments accepted", "why_tests_cant": "All data files, block sizes, item counts and buffer sizes, which determine the number of passes.", "anchors": ["include/nudb/impl/rekey.ipp: rekey", "include/nudb/rekey.hpp"]}
{"id": "C43", "title": "A running context always has a thread that schedules flushes", "statement": "Whenever some thread is inside context::run() and stop_all() is not in progress, one of them is the thread that moves waiting stores to the flushing list once per second, so open stores keep being flushed.", "quantifier": "every interleaving of start, run, flush, stop_all, open and close on any number of threads", "why_tests_cant": "The failure needs stop_all() to overlap the entry into run() of two threads within a window of a few instructions.", "anchors": ["include/nudb/impl/context.ipp: start, stop_all, run"]}
{"id": "C44", "title": "Power loss while several threads use the store", "statement": "With any number of threads fetching and inserting and a flush going on beside them, the machine may stop at any instant, any number of times. The database can always be opened again; it then holds exactly what it held when the last completed flush began, or, if a flush was in progress, possibly what it held when that flush began. A key whose insert had returned before a flush began that completed is found with its value for ever; no fetch finds a value that was not given to an insert of that key; and apart from stops every call is answered as if it took effect in one instant.", "quantifier": "every interleaving of any number of fetching and inserting threads with the flush, every instant of every stop, every image the operating system may leave of unsynced data (log appends surviving as a prefix), any number of interrupted recoveries", "why_tests_cant": "Combines the unbounded interleavings of threads with the unbounded set of disk images after a stop.", "anchors": ["include/nudb/impl/basic_store.ipp: fetch, insert, flush, commit", "include/nudb/impl/recover.ipp: recover", "include/nudb/detail/gentex.hpp"]}
{"id": "C45", "title": "Short transfers and errors on Windows are handled", "statement": "With the Windows file class, a read or write either transfers exactly the requested bytes or reports an error, whatever sequence of partial transfers and errors the system produces; short_read is reported exactly for ranges beyond the end of the file, a full disk is reported instead of retried for ever, and a failed write has written a prefix.", "quantifier": "every sequence of system call results, every file content, offset and length (also above 2^32)", "why_tests_cant": "Kernel behaviours cannot be enumerated by tests, and transfers above 4 GiB are not tested.", "anchors": ["include/nudb/impl/win32_file.ipp: read, write, trunc"]}
{"id": "C46", "title": "I/O errors while several threads use the store", "statement": "With any number of threads fetching and inserting and a flush going on beside them, any file operation may fail, having had any part of its effect, and the machine may stop at any instant. Every call is answered as if it took effect in one instant, or is answered with an error and has no effect, then or later. Errors are answered only to calls one of whose own file operations failed and after a failed flush; after a failed flush every new call is answered with an error until the database is opened again. The database can always be opened again, and then holds exactly what had been saved, or what was there when the failed flush began; a key whose insert was acknowledged before a flush began that completed is never lost.", "quantifier": "every interleaving of any number of fetching and inserting threads with the flush, every choice of failing operations and of what they leave behind, every instant of every stop, every image the operating system may leave of unsynced data (log appends surviving as a prefix), any number of interrupted recoveries", "why_tests_cant": "Fault injection in tests fails one operation of a single-threaded run; here failures, partial effects, interleavings and stops are combined without bound.", "anchors": ["include/nudb/impl/basic_store.ipp: fetch, insert, exists, flush, commit", "include/nudb/basic_store.hpp: ec_, ecb_", "include/nudb/impl/recover.ipp: recover"]}
{"id": "C47", "title": "Every call is answered and every flush ends", "statement": "While several threads fetch and insert and a flush goes on beside them, no schedule makes a call or a flush run for ever: without new calls, the threads and the flush come to rest after finitely many steps, whichever of them is scheduled when. Where they have come to rest nobody is stuck: every call has been answered, the flush has been completed and nothing waits for another one. With failing file operations this holds too, except that the flush may have failed instead, and the store then refuses calls.", "quantifier": "every reachable state of any number of fetching and inserting threads with the flush, every infinite schedule, every choice of failing operations", "why_tests_cant": "Termination under every schedule is a statement about infinite executions; a test run can only show that one schedule ended.", "anchors": ["include/nudb/impl/basic_store.ipp: fetch, insert, exists, flush, commit", "include/nudb/detail/gentex.hpp: gentex", "include/nudb/impl/basic_store.ipp: load, exists (spill chains)"]}
{"id": "C48", "title": "A new generation waits for exactly the earlier locks", "statement": "The generation counting mutex makes finish() return only when every lock that was held when start() was called has been given back, and then as soon as it is scheduled, whoever has got a lock since; no wake-up is lost, getting and giving back a lock never waits, and its counters are exact.", "quantifier": "every interleaving of any number of threads that lock, unlock, start generations and wait for them, with spurious wake-ups; 64-bit generation numbers that wrap around, provided nobody keeps a lock over 2^64 generations", "why_tests_cant": "A lost wake-up or a miscounted holder shows only under particular interleavings of four critical sections and a condition variable.", "anchors": ["include/nudb/detail/gentex.hpp: gentex_t"]}
{"id": "C49", "title": "A generation lock is given back exactly once and with its own generation", "statement": "Every genlock that owns a lock gives it back once, with the generation it got it in, when it is unlocked or destroyed, also after it has been moved or swapped.", "quantifier": "every sequence of constructions, lock, unlock, moves, swaps and destructions of genlocks, with generations started in between", "why_tests_cant": "Whether the right generation is given back depends on the whole history of the lock objects; the move operations are not exercised by any test.", "anchors": ["include/nudb/detail/gentex.hpp: genlock"]}
{"id": "C50", "title": "File objects own their descriptors", "statement": "Whatever file objects are constructed, moved, assigned (also to themselves), opened, created, closed and destroyed, and whatever the system answers: every open descriptor is in exactly one object, none is closed twice or leaked, an object whose open() reported an error is closed, one whose open() reported none is open, and erasing a file that does not exist is not an error.", "quantifier": "every sequence of operations on any number of posix_file or win32_file objects, every answer of the system", "why_tests_cant": "Leaks and double closes depend on the order of moves and failures; system call failures such as that of posix_fadvise cannot be provoked in a test.", "anchors": ["include/nudb/impl/posix_file.ipp: ~posix_file, posix_file, operator=, close, create, open, erase", "include/nudb/impl/win32_file.ipp: the same"]}
{"id": "C51", "title": "A machine stop during create() leaves no database or an empty one", "statement": "If the machine stops during create(), or during later attempts to open what it left, open() reports an error or opens a database in which no key is found; once create() has returned, a stop loses nothing.", "quantifier": "all good arguments, every point of create() and of any number of interrupted or failed attempts to recover or open, every set of unsynced changes surviving the stops, any failing operations", "why_tests_cant": "A test cannot stop the machine between two writes nor choose which unsynced bytes reach the disk.", "anchors": ["include/nudb/impl/create.ipp: create", "include/nudb/impl/recover.ipp: recover", "include/nudb/impl/basic_store.ipp: open"]}
{"id": "C52", "title": "Damaged files cannot make the library touch memory outside its buffers", "statement": "Whatever bytes the three files contain, also if they change while the store is open, and whatever operations fail: open(), fetch(), insert() and the flush never read or write outside the memory of a bucket, and every call ends.", "quantifier": "all file contents, every answer to every read, every failing operation, every sequence of calls on a store open() has accepted", "why_tests_cant": "A test damages a few bytes of a few files; the claim is about all contents, and an access just outside a heap block often goes unnoticed.", "anchors": ["include/nudb/detail/bucket.hpp: at, lower_bound, insert, erase, read, write, maybe_spill", "include/nudb/detail/cache.hpp: insert", "include/nudb/impl/basic_store.ipp: fetch, exists, split, load, commit", "include/nudb/impl/recover.ipp: recover"]}
{"id": "C53", "title": "verify() reports its progress sensibly", "statement": "verify() calls the progress function with the same total throughout, with amounts that never decrease, and never with an amount above the total; calling it changes neither the result nor the files.", "quantifier": "all database files, healthy or damaged, all buffer sizes, both algorithms", "why_tests_cant": "The total is an estimate computed from header fields and file sizes; whether the amounts stay below it depends on the whole history of the database, and tests pass a progress function that does nothing.", "anchors": ["include/nudb/impl/verify.ipp: verify_normal, verify_fast", "include/nudb/progress.hpp"]}
{"id": "C54", "title": "The library has no data races", "statement": "Calls that the documentation allows to run concurrently never access the same member of a store, of its generation lock or of its context at the same time, one of them writing it.", "quantifier": "any number of threads, every interleaving of fetch, insert, set_burst, the observers, flushes, close and the functions of the context, every failing file operation", "why_tests_cant": "A race shows only in rare interleavings and often has no visible effect; a race detector sees only the executions a test happens to produce.", "anchors": ["include/nudb/impl/basic_store.ipp: fetch, insert, exists, set_burst, commit, flush, close", "include/nudb/impl/context.ipp", "include/nudb/detail/gentex.hpp"]}
{"id": "C55", "title": "Threads never wait for each other's mutexes in a circle", "statement": "At no time is there a circle of threads each of which waits for a mutex that the next one holds, nor does a thread wait for a mutex it holds itself; a call that has ended has given all mutexes back.", "quantifier": "any number of threads, every interleaving of the calls of C54", "why_tests_cant": "A deadlock needs several threads to stop at particular places at the same time.", "anchors": ["include/nudb/impl/basic_store.ipp: fetch, insert, commit, flush, close", "include/nudb/impl/context.ipp", "include/nudb/detail/gentex.hpp"]}
{"id": "C56", "title": "Buffered file access never leaves its buffers and transfers the right bytes", "statement": "The buffered reader and writer behind open, recovery, verify, visit, rekey and the flush never touch memory outside their buffers: whatever the files answer, and however large records and fields are compared to the buffer. What is read are the bytes of the file, and what is written extends the file by exactly the fields written, at the offsets given out.", "quantifier": "all buffer sizes, sequences of records and fields, file contents, answers and errors of the file operations, contents of new memory", "why_tests_cant": "An overrun by a few bytes usually goes unnoticed, and it depends on how record sizes, buffer size and position in the buffer come together.", "anchors": ["include/nudb/detail/buffer.hpp", "include/nudb/detail/stream.hpp", "include/nudb/detail/bulkio.hpp: bulk_reader::prepare, bulk_writer::prepare, bulk_writer::flush"]}
{"id": "C57", "title": "The ratios reported by verify() are what they are documented to be", "statement": "For every healthy database, avg_fetch is the average over all values of the number of file reads that fetch() makes on a newly opened store before it reads the value; overhead is the size of both files over the bytes needed for keys, values and sizes, less one; actual_load is the number of values over the number of entries for which the buckets have room; and waste is the fraction of the data file occupied by spill records not in use.", "quantifier": "all databases reached by any history of calls, all hash functions, buffer sizes and both algorithms", "why_tests_cant": "Tests print these numbers or do not look at them; no expected value is known for them except by counting the reads of every fetch.", "anchors": ["include/nudb/verify.hpp: verify_info::avg_fetch, waste, overhead, actual_load", "include/nudb/impl/verify.ipp: verify_normal, verify_fast"]}
{"id": "C58", "title": "Each function changes only the files it may", "statement": "Whatever the file operations answer - any data, sizes and errors, hence also on damaged files and failing disks: fetch, insert, visit and verify change no file; a flush only appends to the data file and the log, writes to the key file only at multiples of the block size after the header block, empties the log and creates, erases or truncates nothing else; close() in addition only erases the log; recover() and open() never write to the data file, never overwrite the header of the key file and never erase or create the data file; rekey() only appends to the data file and truncates nothing.", "quantifier": "all functions, all stores and arguments, all sequences of answers of the file operations", "why_tests_cant": "Tests see the operations made on the files they use; which operations a function could issue on other files or after other errors is a statement about all of them.", "anchors": ["include/nudb/impl/basic_store.ipp: open, close, fetch, insert, commit, flush", "include/nudb/impl/recover.ipp: recover", "include/nudb/impl/rekey.ipp: rekey", "include/nudb/impl/visit.ipp: visit", "include/nudb/impl/verify.ipp: verify"]}
{"id": "C59", "title": "A database keeps its identity", "statement": "appnum(), key_size() and block_size() of an open store always return what create() was given, and the headers of data and key file remain byte for byte as create() wrote them, after any calls, flushes, re-opens, stops of the machine and recoveries; replacing the key file by rekey() changes only the key file's header, after which block_size() is the one given to the last rekey().", "quantifier": "all histories of calls, stops, recoveries and rekeys, all arguments of create() and rekey(), all hash functions", "why_tests_cant": "A test compares the attributes after the histories it runs; that no crash and no recovery can change them concerns every interleaving of partial writes.", "anchors": ["include/nudb/basic_store.hpp: appnum, key_size, block_size", "include/nudb/impl/basic_store.ipp: open, appnum, key_size, block_size", "include/nudb/impl/rekey.ipp: rekey"]}
{"id": "C60", "title": "An open store keeps in memory exactly what is not saved yet", "statement": "Between calls an open store holds the pairs inserted since the last completed flush or open, each with its value, and nothing else: no pair that is in the files, no batch left over from a flush and no cached bucket, so its memory does not grow with the database.", "quantifier": "all histories of calls, also with stops of the machine, all hash functions", "why_tests_cant": "The contents of the pending pool are not observable through the interface except by memory use, and the claim is about all histories.", "anchors": ["include/nudb/basic_store.hpp: basic_store::state (p0, p1, c1)", "include/nudb/impl/basic_store.ipp: insert, commit", "include/nudb/detail/pool.hpp: pool_t"]}
{"id": "C61", "title": "The cost of a flush depends on the batch, not on the database", "statement": "Saving n pending pairs reads at most 2n and writes at most 3n buckets of the key file, writes at most 62 + 2n(8 + block_size) bytes to the log, calls sync at most five times and truncates at most one file, however large the database is, whatever the file system answers and wherever the flush stops.", "quantifier": "all open stores, all pending batches, all answers and errors of the file system, all hash functions and iteration orders", "why_tests_cant": "The bounds are worst-case bounds over all distributions of keys to buckets and all splits; a benchmark sees the average of a few runs.", "anchors": ["include/nudb/impl/basic_store.ipp: commit, flush, load, split", "include/nudb/detail/bucket.hpp: maybe_spill", "include/nudb/detail/cache.hpp: cache_t"]}
{"id": "C62", "title": "The cost of a lookup depends on collisions, not on the size of the database", "statement": "A fetch or insert reads one bucket of the key file, at most one spill record for each `capacity` saved keys that belong to the bucket of the key, and one value for each saved key with the same hash; a fetch of a pending key reads nothing.", "quantifier": "all histories, all keys, all hash functions", "why_tests_cant": "The number of reads is not observable through the interface, and the bound is about all histories and all hash functions, also bad ones.", "anchors": ["include/nudb/impl/basic_store.ipp: fetch, insert, exists", "include/nudb/detail/bucket.hpp: lower_bound"]}
{"id": "C63", "title": "Throttling only delays, and only under sustained load", "statement": "The delay insert() imposes on its caller and set_burst() change neither answers nor files. A caller is delayed only by the insertion of a new pair while more than burst_size bytes are waiting to be saved, and only after a batch of more than burst_size bytes has been saved since the database was opened, however the clock runs and whatever rates are measured.", "quantifier": "all histories of calls and set_burst(), all readings of the clock, all results of the floating point computation of rates", "why_tests_cant": "Delays depend on the clock and on floating point rates, which tests cannot control; a test on a fast machine never sees one.", "anchors": ["include/nudb/impl/basic_store.ipp: insert, flush, commit, set_burst", "include/nudb/basic_store.hpp: set_burst, basic_store::state"]}
{"id": "C64", "title": "Files and tables stay within the ranges of their types", "statement": "Whatever is inserted and however often the machine is stopped, the data file never exceeds 2^48 + 2^33 bytes, each saved pair takes at least 7 bytes and its key in it, the table never has more buckets than saved pairs and one, and the key file stays below 2^62 bytes, so that all positions fit into the types used for them; the modulus of bucket_index() is at most 2^32, as it asserts, while fewer than 2^32 pairs are saved.", "quantifier": "all histories of calls and stops of the machine, all arguments of create(), all hash functions", "why_tests_cant": "The limits are far beyond what a test can write.", "anchors": ["include/nudb/type_traits.hpp", "include/nudb/detail/bucket.hpp: bucket_index", "include/nudb/detail/field.hpp: uint48_t", "include/nudb/impl/basic_store.ipp: commit"]}
{"id": "C65", "title": "Pending pairs and cached buckets stay intact in memory", "statement": "For pools and caches used through their members, wherever operator new[] puts its blocks and whichever allocations fail: no access is made outside allocated memory or through a dangling pointer, nothing is deleted twice; a pair that was inserted is found with exactly its bytes, and a cached bucket keeps its bytes, until the container is cleared or exchanged or the bucket is written to, whatever else is allocated, written, cleared or exchanged in between; iterating a pool gives each pair once, in the order of the keys; a call that throws bad_alloc changes nothing that can be seen.", "quantifier": "all sequences of calls on any number of pools and caches, all placements of blocks, all allocation failures, all initial contents of memory", "why_tests_cant": "Overlapping blocks and dangling pointers show only for particular sizes, sequences of calls and addresses; allocation failures do not occur in tests.", "anchors": ["include/nudb/detail/pool.hpp", "include/nudb/detail/cache.hpp", "include/nudb/detail/arena.hpp"]}
{"id": "C66", "title": "Each function reports only the errors meant for it", "statement": "Whatever the files hold, in whatever state a store is and whichever file operations fail: apart from errors of file operations (including short_read), create reports only invalid arguments; recover and open only bad or mismatched headers, no_key_file and bad log records; fetch only key_not_found, insert only key_exists, and these, flush and close invalid_bucket_size; rekey only a bad data file header and log_file_exists; verify only bad headers and what it found to be inconsistent; visit only a bad data file header and what its callback set. Each of these codes is reported by some call. Nine codes of the enumeration (too_many_buckets, short_key_file, short_bucket, incomplete_data_file_header, incomplete_key_file_header, invalid_log_record, invalid_log_offset, pepper_mismatch, duplicate_value) are never reported.", "quantifier": "all files, arguments, stores in use and answers of file operations", "why_tests_cant": "Callers branch on error codes; that a code cannot come from a function is a statement about all damaged files and all failures, of which tests try a few.", "anchors": ["include/nudb/error.hpp:80-231", "include/nudb/impl/basic_store.ipp", "include/nudb/impl/recover.ipp", "include/nudb/impl/verify.ipp", "include/nudb/impl/rekey.ipp", "include/nudb/impl/create.ipp", "include/nudb/impl/visit.ipp"]}
{"id": "C67", "title": "A refused key file can be rebuilt from the data file", "statement": "When open() refuses the key file of a database (bad header, or a header that does not match the data file) or reports no_key_file, the user deletes the key file and calls rekey(); rekey() and open() then succeed and every key has the value last stored for it.", "quantifier": "for all databases made by any history of calls, all key files that are refused, all arguments of rekey", "why_tests_cant": "It combines every way a key file can be unusable with every database; existing tests call rekey only after a clean close.", "anchors": ["include/nudb/impl/basic_store.ipp:106-213", "include/nudb/impl/recover.ipp:25-90", "include/nudb/impl/rekey.ipp:27-115"]}
{"id": "C68", "title": "A left-over error in ec does not change what a call does", "statement": "What create, open, recover, rekey, verify, visit, fetch, insert and close do, deliver and report does not depend on the value that the caller's error_code holds before the call; in particular a call that succeeds leaves ec clear, and ec may be used again after key_not_found or key_exists.", "quantifier": "for all databases, keys, values, states of the files and errors left in ec", "why_tests_cant": "Tests use a fresh error_code for each call or clear it; whether a left-over error matters depends on whether the key is still in memory.", "anchors": ["include/nudb/impl/basic_store.ipp:118-408", "include/nudb/impl/create.ipp:92-170", "include/nudb/impl/recover.ipp:42-60", "include/nudb/impl/rekey.ipp:50-73", "include/nudb/impl/visit.ipp:38-50", "include/nudb/impl/verify.ipp:550-565", "include/nudb/impl/posix_file.ipp:56-199"]}
{"id": "C69", "title": "The callback of fetch() may use the store", "statement": "A program whose fetch() callbacks themselves call fetch(), insert() or set_burst() on the same store never hangs: from every state that its threads and the flushing thread can reach, all calls can still return.", "quantifier": "for all numbers of threads, all sequences of calls with callbacks nested to any depth, all places where the keys are found, and all interleavings", "why_tests_cant": "Whether the callback runs while the store's mutex is held depends on whether the value has been flushed yet, and the deadlock of a nested fetch needs a flush to start waiting between two lock operations.", "anchors": ["include/nudb/basic_store.hpp:346-390", "include/nudb/impl/basic_store.ipp:220-265", "include/nudb/impl/basic_store.ipp:266-354", "include/nudb/impl/basic_store.ipp:456-466", "include/nudb/impl/basic_store.ipp:580-804", "include/nudb/detail/mutex.hpp:17-21", "include/nudb/detail/gentex.hpp:50-96"]}
{"id": "C70", "title": "A store gives back its files", "statement": "A store has exactly its three files open while it is open. A failed open() leaves nothing more open than before, after close() (also one that reports an error) none of its files is open and it can be opened again, and after destruction no file is left open.", "quantifier": "for all sequences of calls of open() and close(), all points at which they fail, and both file classes", "why_tests_cant": "There are many points of failure in open(), recover() and close(); tests look at the returned error, not at the handles left open, and the sharing rules differ between the platforms.", "anchors": ["include/nudb/basic_store.hpp:130-162", "include/nudb/basic_store.hpp:289-310", "include/nudb/impl/basic_store.ipp:27-60", "include/nudb/impl/basic_store.ipp:118-218", "include/nudb/impl/recover.ipp:28-96", "include/nudb/impl/win32_file.ipp:57-90"]}
{"id": "C71", "title": "A database in use is not opened a second time", "statement": "While a store has a database open, open() of the same files by another store is refused, so that no pair that was saved can be lost and no key can get two values by two stores working on the same files.", "quantifier": "for all databases, pasts of the first store, keys and values", "why_tests_cant": "Tests open each database once; the damage shows only after both stores have flushed and the table has grown in between, and depends on the platform.", "anchors": ["include/nudb/basic_store.hpp:311-345", "include/nudb/impl/basic_store.ipp:118-188", "include/nudb/impl/recover.ipp:42-104", "include/nudb/impl/posix_file.ipp:59-86", "include/nudb/impl/win32_file.ipp:57-90"]}
{"id": "C72", "title": "visit() of a database in use", "statement": "With posix_file, visit() of a database that a store has open and is flushing calls the callback for all pairs saved before, in the order they were saved, then for some of those being saved, also in order, each with its whole key and value; it reports no error unless the callback sets one.", "quantifier": "for all databases, pasts of the store, callbacks, and interleavings of the file operations of visit() with those of the flush", "why_tests_cant": "Which of the operations of the flush have been done when visit() reads depends on timing; a test sees a few of the interleavings and cannot make a write visible in part.", "anchors": ["include/nudb/impl/visit.ipp:15-92", "include/nudb/detail/bulkio.hpp:24-188", "include/nudb/impl/basic_store.ipp:612-804", "include/nudb/impl/posix_file.ipp:144-167"]}
{"id": "C73", "title": "A copy of the data file is a backup", "statement": "A copy of the data file alone, made with posix_file while a store has the database open and flushes it, can be made into a database with rekey(); a store opened on it finds every pair saved before the flush, some of those being saved, and no others.", "quantifier": "for all databases, pasts of the store, arguments of rekey(), ways to read the file in pieces, and interleavings of the reads with the operations of the flush", "why_tests_cant": "What the copy contains depends on timing and on how records, spills and buffers fall; tests rekey data files of closed databases.", "anchors": ["include/nudb/impl/rekey.ipp:28-247", "include/nudb/impl/basic_store.ipp:612-804", "include/nudb/detail/bulkio.hpp:106-191"]}
{"id": "C74", "title": "Errors are told apart", "statement": "Each error of the library has its own code, which converts to true, compares equal only to itself, and is never taken for a condition of the operating system (such as a missing file, on which recovery and rekey() depend); each has its own message, different from that of success.", "quantifier": "for all errors, codes, conditions and numberings of system errors", "why_tests_cant": "Tests compare a few codes; a confusion shows only for the pair of a library error and a system error with the same number.", "anchors": ["include/nudb/error.hpp:82-263", "include/nudb/impl/error.ipp:13-170", "include/nudb/impl/recover.ipp:78-88", "include/nudb/impl/rekey.ipp:66-73"]}
{"id": "C75", "title": "An older key file serves a newer data file", "statement": "If the key file is copied while no flush is in progress and the data file is copied at any later time (also during a flush, and whatever its end looks like), open() of the two copies, without a log file or with an empty one, succeeds, and fetch() finds every pair that was saved when the key file was copied, with its value, and no other. In the other order this does not hold.", "quantifier": "for all histories before and after the copy of the key file, all points of a flush, all keys, and all bytes appended to the data file", "why_tests_cant": "Tests copy whole, closed databases; the pairs of file versions are unbounded in number.", "anchors": ["include/nudb/impl/basic_store.ipp:86-188", "include/nudb/impl/basic_store.ipp:220-264", "include/nudb/impl/basic_store.ipp:356-408", "include/nudb/impl/recover.ipp:30-92"]}
{"id": "C76", "title": "The count shown by nudb visit serves nudb rekey", "statement": "For the data file of a closed database, 'nudb visit' exits with success and shows the number of values in the file and, for each power of two, how many values have a size from that power up to the next. 'nudb rekey' of the data file with that number exits with success and makes a database that opens and in which fetch() finds every saved pair, and no other.", "quantifier": "for all databases reached by a history of calls, all salts and buffer sizes", "why_tests_cant": "The tool has no tests; the number of values, their sizes and the rounding of the number of buckets in single precision vary without bound.", "anchors": ["tools/nudb.cpp:376-405", "tools/nudb.cpp:444-501", "include/nudb/_experimental/util.hpp:20-37", "include/nudb/impl/rekey.ipp:86-88"]}
{"id": "C77", "title": "The exit status of the tool tells whether the command succeeded", "statement": "'nudb recover', 'nudb rekey', 'nudb verify', 'nudb visit' and 'nudb info' exit with success only if the function of the library reported no error, change the files as that function does, and show its error on standard error.", "quantifier": "for all contents of the files and all options", "why_tests_cant": "The tool has no tests; the states of the files are unbounded in number.", "anchors": ["tools/nudb.cpp:212-501"]}
{"id": "C78", "title": "The tool shows numbers and headers as they are", "statement": "'nudb info' of a database shows the sizes of the files and the headers with the values given to create(). Numbers are shown in decimal with a comma before every third digit from the right, or as 0x and sixteen hexadecimal digits; reading what is shown gives the number back. A histogram is shown without its trailing zeros.", "quantifier": "for all databases reached by a history of calls, and all 64-bit numbers", "why_tests_cant": "There are 2^64 numbers, and the tool has no tests.", "anchors": ["tools/nudb.cpp:21-105", "tools/nudb.cpp:271-355", "include/nudb/_experimental/util.hpp:20-88"]}
{"id": "C79", "title": "The progress shown by the tool is right", "statement": "While 'nudb visit', 'nudb rekey' or 'nudb verify' works, each line of progress shows the amount done and the total, how much was done since the line before, the time since the start and since the line before (at least 30 seconds for the first line and 60 for the others), and the time the rest takes at the rate so far; nothing undefined happens, as long as that time is less than 292 years.", "quantifier": "for all databases, all numbers and sizes of records, and all readings of the clock that do not go back", "why_tests_cant": "Lines appear only after 30 seconds of work, with amounts and times that differ in every run; the tool has no tests.", "anchors": ["include/nudb/_experimental/util.hpp:215-284", "include/nudb/_experimental/basic_seconds_clock.hpp:84-103", "tools/nudb.cpp:376-501", "include/nudb/impl/visit.ipp:55-90", "include/nudb/impl/rekey.ipp:164-193", "include/nudb/impl/verify.ipp:321-341"]}
{"id": "C80", "title": "visit() of a damaged data file finds what is in front of the damage", "statement": "visit() of any file that begins with a good data file header, whatever follows, ends without changing a file; it presents every value among the complete records in front of the first damage, once and in order, then reports an error; it reports success only if the whole file consists of complete records; whatever it presents has a key of the size in the header and a value of 1 to 2^32-1 bytes, and progress never decreases nor exceeds the size of the file.", "quantifier": "for all contents of the file behind the header, and all callbacks", "why_tests_cant": "A test damages a file in a few chosen places; the claim is about every sequence of bytes.", "anchors": ["include/nudb/impl/visit.ipp:22-90", "include/nudb/detail/field.hpp:169-177", "include/nudb/detail/bulkio.hpp:66-104"]}
{"id": "C81", "title": "rekey() of a damaged data file fails and can be undone", "statement": "rekey() of any file that begins with a good data file header, whatever follows, ends and never changes or removes a byte of the file; it reports success only if the whole file consists of complete records, and reports an error if the last record is incomplete; after an error recover() brings the data file back as it was and leaves no key file and no log file.", "quantifier": "for all contents of the file behind the header, and all arguments of rekey() within their documented range", "why_tests_cant": "A test damages a file in a few chosen places; the claim is about every sequence of bytes and every number of passes and buckets.", "anchors": ["include/nudb/impl/rekey.ipp:20-244", "include/nudb/impl/recover.ipp:24-205", "include/nudb/detail/bulkio.hpp:59-98"]}
{"id": "C82", "title": "The data file alone gives the database: cut off, joined or extended", "statement": "If a data file is cut off at any byte behind its header, its complete records hold the values saved first; visit() tells with its last progress call where they end; and rekey() of these records alone, with any arguments, followed by open(), gives a store with exactly these values. The data files of two databases with the same key size and no key in common, joined without the second header, give a store with the values of both; values that another program appends in the documented format are found too.", "quantifier": "for all histories of the databases, all places of the cut, all appended values, all hash functions and all arguments of rekey() within their documented range", "why_tests_cant": "A test cuts or joins a few files; the claim is about all histories and all places, with spill records of earlier key files anywhere in the file.", "anchors": ["include/nudb/impl/rekey.ipp:20-244", "include/nudb/impl/visit.ipp:22-90", "include/nudb/detail/format.hpp:222-240"]}
{"id": "C83", "title": "The failures simulated by fail_file are real ones, and each has its turn", "statement": "Whatever fail_file makes of a function of the library is a possible run of it with failing file operations. With the target of its counter at n the function goes on as without failures up to the n-th chance to fail (one for each read, sync and truncation, two for each write), where the operation fails with nothing or half of it done; with a target of 0 or beyond the number of chances nothing changes. After the target every further read, write, sync and truncation fails without effect. A flush made to fail in this way is undone or completed by recover().", "quantifier": "for all functions of the library, all files, all targets; for the flush all histories of the database, hash functions and arguments within their documented range", "why_tests_cant": "It is a claim about the tests themselves: that the loop over targets covers every operation, and which failures it cannot produce.", "anchors": ["include/nudb/_experimental/test/fail_file.hpp:111-141", "include/nudb/_experimental/test/fail_file.hpp:267-337"]}
{"id": "C84", "title": "A recovery that failed can be tried again", "statement": "After a stop during any call, or a flush in which operations failed, recover() or open() may be tried any number of times, any of its file operations failing each time or the machine stopping again; as soon as recover() succeeds, the files are as if it had succeeded at once, and open() works too.", "quantifier": "for all histories of the database, all calls stopped at any point, all numbers of attempts and all failures in them, all hash functions and arguments within their documented range", "why_tests_cant": "The failure may hit any operation of any attempt; the simulation of the tests lets no operation succeed after a failed one.", "anchors": ["include/nudb/impl/recover.ipp:24-205"]}
{"id": "C85", "title": "Item i of the test data is the same pair every time", "statement": "operator[](i) of the test store gives, for every i but 2^64-1, a key of the right size and a value of the size drawn for it, without writing outside its buffer, and the same bytes each time whatever was asked for before. The generator behind it accepts every seed but 0, never comes to the state in which it gives only zeros, and two generators with different seeds are never in the same state after the same number of draws.", "quantifier": "for all item numbers, key sizes, size distributions (as functions of the generator), contents of the buffer, seeds and numbers of draws, byte orders", "why_tests_cant": "The tests draw their data from it; they can visit only a few of the 2^128 states and 2^64 seeds, and all of them take for granted that an item can be made again.", "anchors": ["include/nudb/_experimental/test/xor_shift_engine.hpp:67-100", "include/nudb/_experimental/test/test_store.hpp:306-323", "include/nudb/_experimental/test/test_store.hpp:357-379"]}
{"id": "C86", "title": "Durations are rounded down, up and to the nearest number", "statement": "floor() gives the largest number of ticks that is not longer than the duration, ceil() the smallest that is not shorter, and round() the nearest, the even one of two equally near.", "quantifier": "for all durations, negative ones included, and all ratios of the lengths of the ticks", "why_tests_cant": "There are no tests of these functions, and the mistake is in the sign that no caller uses.", "anchors": ["include/nudb/_experimental/chrono_util.hpp:17-55"]}
{"id": "C87", "title": "A failed file operation makes the call fail", "statement": "If the operating system reports an error for any file operation of a call of create(), recover(), open(), insert(), fetch(), close(), visit(), verify() or rekey(), the call fails (visit() may throw instead); in a flush, the store keeps the error. insert(), fetch(), close(), verify() and rekey() report that very error: it is never taken for a missing or present key, a broken file or success. So a call that succeeds has had the effect it has when nothing fails.", "quantifier": "for all positions of the failed operation, all answers to the operations before and after it (including further failures), all contents of the files, states of the store, callbacks and arguments", "why_tests_cant": "The failing file of the tests lets one operation fail in a few workloads, and the tests only look for the absence of damage afterwards, not whether each failure was reported.", "anchors": ["include/nudb/impl/create.ipp:43-156", "include/nudb/impl/recover.ipp:24-205", "include/nudb/impl/basic_store.ipp:117-420", "include/nudb/impl/basic_store.ipp:590-806", "include/nudb/impl/visit.ipp:22-90", "include/nudb/impl/verify.ipp:34-630", "include/nudb/impl/rekey.ipp:20-244"]}
{"id": "C88", "title": "Failures in lookups and inserts do no harm", "statement": "When file operations fail in calls of fetch and insert, such a call gives the answer the map gives or reports the failure, and the files stay as they are. A call that reported a failure leaves no trace: the store can be used on, and behaves for ever after as if the call had not been made. A flush, and a close() with the open() after it, that succeed where operations may fail are as good as any other, and verify() run where reads may fail reports the failure or gives the true figures (block sizes from 116 on, see C22).", "quantifier": "for all histories of inserts, fetches, flushes and re-opens with any number of such failures at any places in them, all hash functions and arguments within their documented range", "why_tests_cant": "Any read of any call may fail; the tests give up a store after the first failure.", "anchors": ["include/nudb/impl/basic_store.ipp:220-454"]}
