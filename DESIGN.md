# Formal model of NuDB: design

Source: `/repo` (CPPAlliance/NuDB, pinned commit), read as text.
Prover: Rocq/Coq 8.16.1, standard library only.

## Architecture

* Files are lists of bytes (`N` below 256). All on-disk structures (integers,
  headers, buckets, records) are modelled at byte level.
* Every C++ function performing I/O is a term of a free monad `prog` over file
  operations (open, create, erase, size, read, write, sync, truncate). The same
  term is interpreted (1) functionally, (2) with crashes between any two
  operations and loss of unsynced data, (3) with injected I/O errors.
* Parameters of the model, universally quantified in every theorem: the hash
  function, the iteration order of `std::unordered_map` (any permutation), the
  contents of uninitialised memory.
* Data-dependent loops (spill chains, file scans) run on a binary fuel of 2^64
  steps; exhausting it is the distinct outcome `EDiverge`, which theorems exclude.
* Undefined behaviour that the code can reach is the distinct outcome `EUB`,
  a failed `BOOST_ASSERT` on offsets beyond 2^48 is `EAssert`, a thrown
  `logic_error` is `EThrow`.

Layers: `Model/` (definitions, each citing file and lines), `Spec.v` (what the
properties mean, independent of the model), `Proofs/`, `Props/` (one theorem
per claim, with examples and `Print Assumptions`).

## Plan per property

| id | how |
|----|-----|
| C01-C05 | refinement: byte-level store vs. insert-only map, by an invariant over all histories |
| C06-C08, C18 | crash/I/O-error semantics of the same programs, invariant at every operation, byte equality after recovery |
| C09, C36 | direct, all file contents |
| C10, C35 | predicate on every operation a flush issues |
| C11, C12, C13, C37 | arithmetic on moduli; invariant on tables |
| C14-C16, C34 | byte-level refinement of bucket and header code |
| C17 | case analysis of the verify functions |
| C19, C32 | refinement of the buffered reader/writer |
| C20, C21 | refinement of rekey; crash points |
| C22, C23, C39 | soundness/completeness of verify; refuted parts with witnesses |
| C24, C25 | interleaving model with locks and generation counters |
| C26, C43 | transition system of the context lists |
| C44 | simulation as for C24, with the crash-safety of `commit` (C06) carried along the flush's remaining program |
| C46 | the same, with an invariant that allows a failed flush |
| C47 | a well-founded order on the positions of threads and flush, and the invariants of C24 and C46 |
| C48, C49 | transition system of gentex; genlocks simulated by its threads |
| C50 | invariant on file objects and open descriptors |
| C51 | invariant: every file is absent or a prefix of what create() writes; refutation by a torn bucket |
| C52 | a second copy of the bucket and store functions in which every access to a bucket's block is checked; invariant: the count in memory and in the block is at most the capacity; relational proof that the copy behaves like the model and never gives EUB when reads are answered arbitrarily; refuted for a cyclic spill chain (calls do not end) and for an overlong log record (recovery overruns the block) |
| C53 | verify() with its calls of the progress function as a program writing a trace; relational proof that it behaves like `Verify`; the amounts computed pass by pass, for any files; refuted by a database filled in many short sessions |
| C54, C55 | every function as a program of accesses and lock operations; the locks held at each access computed, invariant over all executions, all pairs of accesses compared by computation; refuted for ec_ after a failed flush |
| C56 | simulation between the buffers with memory and those of `BulkIO`, which ask the same file operations and give the same results |
| C57 | simulation between verify with and without the count of fetches; the search of verify along a chain in step with that of fetch; counting of spill records, of which no two chains share one |
| C58 | a predicate on programs, all operations of which satisfy a condition for all answers, carried through every function; an invariant for the first block of the key file |
| C59 | read off the invariant of histories with stops; induction over histories with rekeys |
| C60 | read off the invariant: the pool and the stored records have no key in common |
| C61 | credits: each pair of the batch pays for the operations it may cause; proved along the program for any answers |
| C62 | walk along a spill chain whose buckets are all full, from the invariant of histories |
| C63 | simulation by the histories without clock; induction over timed histories with the invariant of the store |
| C64 | read off the invariant of histories with stops, by counting records |
| C65 | invariant: nodes and indexes point to live regions of the arenas, which are disjoint; each call preserves it and has its effect |
| C66 | by the structure of the programs, for arbitrary answers of file operations; that each code occurs by computation with chosen answers |
| C67 | refuted as stated: open() leaves an empty log that blocks rekey(), recover() and open(); holds when that log is deleted as well, by the refinement of C20 |
| C68 | refuted: with an error left in ec a saved key is reported missing and create() leaves an empty file; what each function then does is proved from the first file operation of its program |
| C69 | refuted for values still in memory (the callback runs while m_ is held); proved for values from the files by an invariant over the owners of m_, u_ and the generations, and a measure that some thread can always make smaller |
| C70 | refuted for close() that reports an error (the files stay open, and with win32_file the store can never be opened again); the rest proved by induction over the calls with the four states a store can be in |
| C71 | proved for win32_file (share mode); refuted for posix_file, for all pasts of the first store (open() of the model on the files of a store in use), with a case where a saved pair is lost |
| C72 | proved for all interleavings of whole operations (Model/Beside.v: one program between the operations of the other; each operation of the flush appends whole records to the data file); refuted when a write may be seen in part: then short_read or an exception are possible, and nothing else (proved) |
| C73 | proved for copies made between whole operations of the flush (from C72's proof that each appends whole records, and the proof of rekey() for any list of records); refuted for copies that end within a record: rekey() reports short_read |
| C74 | case analysis over the enumeration and the categories; refuted for the message of success |
| C75 | fetch's reads of a valid database all succeed, and the same reads of a longer data file give the same bytes; the data file only grows; a counterexample for the other order |
| C76 | visit of a valid database (C19) gives the values in order; bounds on the rounded number of buckets make rekey's arguments good; rekey of a prefix (C73); the empty database is a counterexample |
| C77 | by running the commands of the tool next to the functions of the library |
| C78 | induction on the digits, with a reader of decimal and hexadecimal numbers as the specification |
| C79 | an invariant of the display over any sequence of calls; C41 supplies the calls of visit(); the counterexample of C53 for verify() |
| C80 | every sequence of bytes has exactly one reading as records and a rest (strong induction on its length); the loop of visit() on any bytes, by induction on what is left |
| C81 | one pass over any bytes, by induction on what is left, with the end of each record as the code computes it; the passes by induction on the buckets left; recovery from C21, which holds for any data file |
| C82 | a cut file reads as a prefix of the records (images of records are prefix-free); rekeying any records with distinct keys, spill records of any earlier key file among them, from the lemma behind C20 |
| C83 | induction over the program of file operations; the flush from C18 |
| C84 | recover() stops at the first failed operation, if that is not a read of a record of the log, and at any failed one when one read gets the whole log; so a failed attempt is a stopped one, and C08 applies |
| C85 | a step of the generator is injective (a number is not its own shift unless it is 0; odd factors have inverses) and leaves 0 alone; induction over the loop of rngfill() |
| C86 | truncating division characterised by quotient and remainder; for the nearest number only its neighbours count |
| C87 | a predicate on programs, closed under sequencing and loops: every end that follows a failed operation is an error; C87_executions ties it to the executions with failures of Model/Crash.v |
| C88 | a call that did not report a failure met none (C87), and lookups do not change files (C58), so histories with failures are those of C01; verify() of such a database is that of C22 |
| C27, C28 | arena and pool models |
| C29 | byte-level XXH64 model |
| C30 | create on all arguments |
| C31 | invariant on the split counter |
| C33, C45 | loops against arbitrary system call answers |
| C41, C42 | the calls of the progress function as part of the result, by the refinements of C19 and C20 |
| C38, C40 | expected to be false of the code: refuted by witness, positive part proved |

## What is modelled

| model file | source | remarks |
|---|---|---|
| `Bytes`, `Field`, `Format` | `detail/field.hpp`, `detail/stream.hpp`, `detail/format.hpp` | all header, record and bucket layouts, all header checks |
| `IO` | File concept, as used by everything below | descriptors are replaced by the file's name; close() has no effect |
| `BulkIO` | `detail/bulkio.hpp` | |
| `Bucket`, `Pool`, `Arena` | `detail/bucket.hpp`, `detail/pool.hpp`, `detail/cache.hpp`, `detail/arena.hpp` | pool and cache are lists/maps in `Pool`; the memory they use is the subject of `Arena` |
| `Recover`, `Create`, `Store`, `Visit`, `Verify`, `Rekey` | `impl/recover.ipp`, `impl/create.ipp`, `impl/basic_store.ipp`, `impl/visit.ipp`, `impl/verify.ipp`, `impl/rekey.ipp` | whole functions; simplifications are named in the comment of each definition |
| `Posix` | read, write, sync and trunc of `impl/posix_file.ipp` | against arbitrary answers of the system calls |
| `Win32` | `impl/win32_file.ipp`: read, write, trunc | trunc only for shortening |
| `XXHash` | `detail/xxhash.hpp`, `xxhasher.hpp` | |
| `Context` | `context.hpp`, `impl/context.ipp`, `detail/store_base.hpp` | one transition per critical section; lists at pointer level; time-outs at any moment; `~context` and the store destructor only as stop_all() and close() |
| `Concurrent` | the locking in `impl/basic_store.ipp`, `detail/gentex.hpp` | one transition per file operation or lock-protected section; any number of threads that fetch and insert, one flush; operations do not fail (see `ConcFail`); no rate limiter, no writer preference of the shared mutex, no condition variables |
| `ConcCrash` | `Concurrent` on a machine that may stop | the states of `Concurrent` with what may be on the disk |
| `ConcFail` | `Concurrent` on a machine that may stop and whose file operations may fail | ecb_, the error exits of fetch(), exists(), insert(), commit() and flush(); that a later flush() may overwrite ec_ while other threads read it (a data race, if File::size() fails once more) is left out |
| `Gentex` | `detail/gentex.hpp` | with mutex, condition variable, 64-bit generations; genlock with moves and swap. `Concurrent` uses its own, simpler counters |
| `Handles` | construction, moving, open, create, close, erase of `impl/posix_file.ipp` and `impl/win32_file.ipp` | close() always closes the descriptor; names and flags left out |
| `CreateCrash` | stops and failures during create() and the attempts to open what it left | environment, no library code; in-order survival of each file's changes where assumed |
| `BucketMem` | the accesses to bucket memory in bucket.hpp, cache.hpp and basic_store.ipp | reads may be answered by anything; user buffers, hash tables and allocation failure are not modelled |
| `VerifyProgress` | `impl/verify.ipp` with the calls of the progress function | the floating-point arithmetic of the estimate is done exactly |
| `Access` | the accesses to shared members and the lock operations of `impl/basic_store.ipp`, `impl/context.ipp`, `detail/gentex.hpp` | computation left out, branches are choices except those on ec_ and ecb_; that one thread at a time flushes a store and that close() is called alone are locks |
| `BufferMem` | `detail/buffer.hpp`, `detail/stream.hpp`, `detail/bulkio.hpp` with the memory of the buffers | allocation failure is not modelled; callers are any sequence of prepare() and reading or writing of fields |
| `VerifyFetch` | the count of fetches and the ratios computed in `impl/verify.ipp` | a ratio is the pair of numbers divided; rounding to `float` is left out |
| `Attrs` | `appnum`, `key_size`, `block_size` of `impl/basic_store.ipp` | |
| `Throttle` | the rate limiter of `impl/basic_store.ipp`: `insert` 335-353, `flush` 769-790, `commit` 591 and 691, `set_burst` | the computation of a rate is an arbitrary function of work and time; overflow of `std::size_t` is not modelled; one thread |
| `PoolMem` | `detail/pool.hpp`, `detail/cache.hpp` with bytes at addresses in the arenas of `Arena` | nodes of the standard maps are lists whose memory is not modelled, but emplace may throw; moves left out |
| `ErrArg` | the public functions as functions of the value of `ec` before the call | derived from the other models: with an error in `ec` a function returns after its first file operation |
| `Reentry` | the lock operations of `fetch`, `insert`, `set_burst`, `flush` and `commit` of `impl/basic_store.ipp`, with what callbacks call | only locks: where a key is found is part of the call; failing calls left out; `boost::shared_mutex` as a count, a flag for the owner and a flag for waiting owners |
| `ObjectLife` | the file objects in `basic_store::open`, `close` and the destructor, and in `recover` | only which variable has which file open; contents left out; one store in the process; files that recover closes early are closed at its end |
| `Beside` | nothing new | `visit` between the operations of `store_flush`, which may be seen in part if so chosen |
| `Backup` | nothing new | a program that copies the data file in pieces |
| `ErrorCode` | `error.hpp`, `impl/error.ipp` | the two categories of Boost.System by their documented behaviour |
| `Tool` | `tools/nudb.cpp`, `_experimental/util.hpp` (numbers) | the parsing of the command line and the texts are left out, class progress is in `ToolProgress`; exceptions and failed assertions count as failures |
| `ToolProgress` | `_experimental/util.hpp` (class progress), `_experimental/basic_seconds_clock.hpp` (when the thread wakes) | exact quotients instead of double precision; how durations are written is left out |
| `FailFile` | `_experimental/test/fail_file.hpp` | the counter does not wrap around; sync() answers as that of the file |
| `Generator` | `_experimental/test/xor_shift_engine.hpp`, `_experimental/test/test_store.hpp` (operator[], rngfill()) | the distribution of sizes is any function of the generator |
| `Round` | `_experimental/chrono_util.hpp` | unbounded whole numbers of ticks |
| `Rest` | nothing new | when threads and flush of `Concurrent` and `ConcFail` get on, and when they are done |
| `History`, `Events`, `RekeyLife`, `Crash` | (uses of the API, and machine failures) | not code of the project |

Specifications (`Spec*.v`, separate from the model): `Spec` (insert-only map), `SpecFormat`,
`SpecHeader`, `SpecDisk` (formats, header conditions, contents of files), `SpecCrash` (a
store that may be stopped), `SpecCreate`, `SpecVisit`, `SpecVerify`, `SpecRekey`,
`SpecXXH`, `SpecArena`, `SpecContext`, `SpecLin` (linearizability), `SpecDurable` (the same
with stops), `SpecFail` (the same with stops and I/O errors), `SpecGen` (generation locks),
`SpecProgress` (reports of progress), `SpecRace` (data races and waiting for mutexes),
`SpecBuffer` (sequential reading and writing), `SpecFetch` (number of file reads), `SpecOps` (operations a function may carry out), `SpecAttrs` (attributes, unsaved pairs), `SpecCost` (numbers of operations), `SpecThrottle` (delays of insert), `SpecPoolMem` (pools and caches in memory), `SpecErr` (errors a function may report), `SpecReentry` (programs whose callbacks use the store), `SpecVisitAny` and `SpecSalvage` (reading damaged data files), `SpecTool` and `SpecToolProgress` (the command line tool), `SpecRetry` (simulated failures, repeated recovery), `SpecItems` (test data), `SpecRound` (rounding), `SpecHeard` (what a call reports when a file operation failed), `SpecTrouble` (histories with failing lookups).

Not modelled: size() of the file classes,
the rest of `_experimental` (the Buffer of the tests, pretty_time()) and of the tool, moving and swapping of other objects, memory exhaustion outside arenas, pools and caches, the real time
between flushes.  Executions are
sequentially consistent; C54 (no data races as long as no flush has failed) is what makes
this right for C++. Arithmetic is on unbounded numbers where a
comment says so; theorems then bound the sizes involved.

## Assumptions about crashes

`Model/Crash.v` defines for every file the set of contents that a machine failure may
leave. Until a file is synced, each write to it may be lost or done in part, in any
combination of bytes, and creation and removal of the file may be lost. Assumed beyond
POSIX: appends to the log reach the disk in order (without this C40 refutes recovery),
truncation of the log to zero is atomic, what recovery finds on the disk when it starts
is on the disk for good.  That files stay below 2^64 bytes is proved, not assumed.

## Trusted base

Coq's kernel (and its virtual machine, for the computed examples); the reading of the
C++ source recorded in the comments of `Model/`; the interpretation of file operations
in `Model/IO.v` and of crashes in `Model/Crash.v`. `Print Assumptions` is printed for
every claimed theorem in `Props/`: all of them are closed under the global context (no
axioms, not even of the standard library).

## Refuted claims

Some properties do not hold of the code. For these there is a theorem with the suffix
`_refuted` giving a concrete counterexample, and theorems for the part that does hold;
the notes in `MANIFEST.json` name both.
