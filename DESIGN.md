# Formal model of acquire-zarr in Rocq (Coq 8.16.1)

The subject is the C++ library in /repo (`src/streaming`, `src/logger`, the C interface, and the parts of the Python
binding that touch data). The model was written by reading the code; nothing was extracted or run.

## 1. Layout of rocq/theories

**Model files** (definitions only, every definition cites the file and lines it models):

| file | code |
|------|------|
| `Base.v` | machine integers as `Z` with explicit wrap, outcome monad (`Ok`, `Throw`, `UB`, `Hang`), byte buffers |
| `Dim.v` | zarr.dimension.cpp/.hh, size functions of zarr.common.cpp |
| `Json.v` | nlohmann::json values and `dump(4)` as the metadata writers use them |
| `World.v` | file.sink.cpp, s3.sink.cpp, s3.connection.cpp, sink.cpp, sink.creator.cpp over an event trace |
| `Writer.v` | array.writer.cpp, zarrv2.array.writer.cpp, zarrv3.array.writer.cpp, blosc.compression.params |
| `Stream.v` | zarr.stream.cpp, string helpers of zarr.common.cpp |
| `Api.v` | acquire.zarr.cpp, logger.cpp |
| `Pool.v` | thread.pool.cpp, std::latch, one client thread: small-step interleaving semantics |
| `Jobs.v` | the jobs the library pushes (make_dirs_, make_files_, compress_buffers_, both flush_impl_) as pool jobs |
| `Conn.v` | s3.connection.cpp pool, s3.sink.cpp and bucket_exists_ with many threads: small-step interleaving semantics |
| `Multi.v` | several clients (streams) in one process |
| `Destroy.v` | finalize_stream + destructor as a program of the pool's client |
| `Py.v` | python/acquire-zarr-py.cpp: append, settings conversion, repr |
| `Vfw.v` | vectorized.file.writer.cpp (POSIX branch) |

**Specification files** (vocabulary of the theorems, independent of how the code works): `Spec.v` (row-major indices, Zarr v2 reader,
Zarr v3 shard reader, pixels), `Limits.v`, `SettingsSpec.v`, `SessionSpec.v`, `StoreSpec.v`, `JsonSpec.v` (a JSON parser), `MetaSpec.v`,
`PyramidSpec.v`, `PixelSpec.v`, `CrashSpec.v`, `AppendSpec.v`, `RunSpec.v`, `S3Spec.v`, `PoolSpec.v`, `ApiSpec.v`, `FrameSpec.v`, `MultiSpec.v`,
`LayoutSpec.v`, `OpenSpec.v`, `SafeSpec.v`, `GridSpec.v`, `RaceSpec.v`, `MemSpec.v`, `OnceSpec.v`, `UploadSpec.v`, `LiveSpec.v`, `ReaderSpec.v`, `AnswerSpec.v`, `ConnSpec.v`. `Spec.v`, `JsonSpec.v` and `AppendSpec.v` import nothing of the model but `Base.v`; the others
take the records of settings, the calls of the interface, and the event trace with what a reader finds after it from the model.

**Proof files** `*Proofs.v`, `*Store.v`, `*Stream.v`, `*Writer.v`, `Radix.v`, `ShardFile.v`, `ShardGrid.v`, `PoolRun.v`, `PoolBatch.v`,
`PoolAssert.v`, `JobS3.v`, `JobClose.v`, `JobCrash.v` ...

**Property files** `Props*.v`: the theorems of MANIFEST.json with short proofs, examples showing that concrete cases meet the hypotheses
(`Examples.v`, `ExamplesUse.v` hold larger ones), and `Print Assumptions` for each.

## 2. Modelling decisions

* Integers: `Z` with explicit `mod 2^32` / `mod 2^64` wherever the C++ expression has that type. Division by zero, out-of-range
  `operator[]`, null sinks, reads outside the caller's buffer, copies outside a chunk buffer, float-to-integer conversions out of range
  are the outcome `UB`. Exceptions are `Throw`. A wait that cannot end (an empty connection pool, the endless downsampling loop) is `Hang`
  or running out of a fuel about which the theorems quantify.
* World: an append-only trace of I/O events. File contents, directories and objects are *derived* from the trace; a crash state is derived
  from a prefix of it and an arbitrary loss of unflushed writes. Failures come from oracles: `e_fault k` (filesystem request k fails),
  `e_s3 k` (S3 request k is answered), `e_stat k p` (the status of path p can be asked after k requests; if not, std::filesystem throws, and in a
  worker's task that is std::terminate, which the model shows as `UB`). An S3 request that is reported as failed has had no effect: replies that get lost after the server has acted are not modelled (C59 depends on it). A failing `remove_all` removes nothing (no partial removal); an ofstream
  whose failbit sticks is one of the oracles. Theorems called "whatever the machine does" quantify over all oracles; round-trip theorems assume none fails.
* Paths are strings; two paths are the same place iff the strings are equal. Links, `..`, case folding are not modelled.
* Compressor, JSON parser: functions in the environment. The only assumptions made (and stated as hypotheses) are that decompression inverts compression and, for C56, that compression adds at most 16 bytes.
* Forming an iterator beyond the end of a buffer without reading or writing through it (array.writer.cpp:280, after a failed flush) is not counted as undefined behaviour.
* Jobs of a flush run in index order in `Writer.v`. `Pool.v`/`Jobs.v` show, for every interleaving of every number of workers, that the
  same files and the same writer state result (C21), that every job has run exactly once when the latch opens (C18-C20), and where
  error reports get lost (C22, C46).
* Pool memory is sequentially consistent; the steps of a job that touch shared data are single steps (all are under a mutex, atomics, or touch
  data of one job). `directory exists? create it` of one directory is one step.
* Pixels are bytes; IEEE arithmetic of `scale_image` is modelled by exact integers where the values provably fit (all
  operands are bytes), otherwise by bit patterns of the target type (`PixelSpec.v`).

## 3. Plan per property

| id | modelled by | method |
|----|-------|--------|
| C01 | Stream, Writer, World; reader in Spec | invariant over frames (every chunk buffer byte is the specified one), trace lemmas, composition over the session |
| C02, C12, C13 | same, v3 writer | proved where it holds (append shard size 1, frames not ending at a chunk boundary); exact description of what is reachable; witnesses of the loss otherwise |
| C03, C04, C05 | `append` and the partial frame buffer | exact description of what calls of any sizes do (`C03_C04_C05_exact`), corollaries, refutations |
| C06, C26, C33-C36 | metadata writers | documents parsed back by the parser of JsonSpec; rewriting in place by length monotonicity |
| C07, C08, C09, C31 | Dim, Writer | mixed radix arithmetic, induction on dimensions; whole content of each chunk |
| C10, C11 | Dim, v3 writer | mixed radix; the table of a shard is an invariant of the flushes |
| C14 (V3, which shards) | all environments in which the appends succeed, all levels | C59's potential with a frame count in the invariant: while the row of a shard is not full, no flush closes its sink (LostProofs, LostStream), and finalize flushes without closing; with C09 and C11 an exact description of the bucket (PropsLost) |
| C14-C17 | S3 sinks and connection pool with an answer oracle | invariants over writes for all failure patterns, refutations |
| C18, C19, C20, C45 | Pool, Destroy | inductive invariants and a termination measure over all interleavings and client programs |
| C21 (S3) | Jobs on Pool, UploadSpec | sinks seen without upload ids refine an abstract sink; each job owns its sink, its upload and its table; closing sinks that look the same gives the same objects (JobS3, JobClose, PropsJobsS3) |
| C21, C46 (files and directories) | Jobs on Pool | assertions for each point of a job; once past the latch every job has reached the assertion of its count-down, although it may still run (PoolAssert.passed, PropsJobsFiles) |
| C21, C46 | Jobs on Pool | rule for batches of jobs with disjoint footprints: the state when the latch opens is that of each job alone |
| C22, C23 | World error cell, Jobs | calculus "a refused request is recorded or reported" (RepProofs), refutations |
| C24, C41 | validation | decision rule equal to an independent predicate |
| C25, C27-C30 | downsampling, multiscale frames | loop characterised exactly; binary-counter invariant over frames; pixel semantics |
| C32 | compression settings | documents against settings, refutation |
| C37 | crash states of trace prefixes; moments of a flush on the pool (JobCrash.v) | ordering invariant: documents are written only after the data they promise is closed; per file the events on the pool are a prefix of the sequential ones |
| C38 | path construction | injectivity of decimal printing and joining; every event belongs to one item |
| C39, C40, C51 | Api | state machine over all call sequences |
| C42, C47, C49 | Py | direct; refutations for strides and NUL characters |
| C43 | Vfw | direct; refutation at 2^32 |
| C44 | explicit wraps | equality with exact arithmetic under the limits of Limits.v; refutation beyond |
| C48 | whole program | `pres` calculus: a predicate on the trace kept by every program step, for all oracles (FrameProofs) |
| C50 | whole program | accounting invariant opens = closes + sinks held |
| C52 | whole program | Hoare logic with UB excluded, for all oracles (SafeProofs, SafeWriter, SafeStream); terminated process when a status query throws: refutation |
| C53 (and C09, absence) | whole program | `hx` logic over writer and stream relating the append chunk index to the frames given, for all oracles (GridProofs, GridStream, GridLevels) |
| C54, C55 | Pool, Jobs | invariants over the interleaving semantics (RaceProofs); schedules that violate them computed in the model |
| C56 | Writer, Stream | invariant on the sizes of all buffers, with a Hoare logic that counts failed calls (MemProofs); for the refutation an induction over n failing appends |
| C57 | Py (py_session), Api and everything below | the arrays in C order are the frames (PropsPySession), then C42, C01/C02/C14 |
| C58 | Multi (several clients over one trace) and everything below | relational logic: two runs of the same program on traces that agree on the store's paths make the same operations and give the same result, for all oracles (IndepProofs, IndepStream); C48 for what the others do; induction over the schedule (MultiProofs) |
| C59 | everything on S3, all environments | potential: uploads made + sinks that may still upload + whether the row (or document) the object belongs to is still to come never grows (OnceProofs per array, OnceStream per stream); which item an object is: C38; the append counter is bounded by the bytes given |
| C60 | everything on S3, all environments | the potential of C59 for the array document: until finalize_array reaches its metadata sink, the array still may upload the document, so it has not yet (OrderProofs: the metadata sink keeps its key); arrays of other levels never get a sink for the object (uploads made + uploads possible does not grow); finalize_stream closes the arrays one after the other (OrderStream); PropsOrder combines it with C07/C06 to C37 on S3 |
| C61 | S3, Zarr V2, all environments and call sequences | a credit invariant: connections in the pool + 2 x refused requests so far >= connections opened, minus what an upload in progress may still lose; each sink carries the credit of the connection it would lose when closed (LiveProofs: sinks; LiveArray: an array; LiveStream: create, append, destroy); waiting means an empty pool, so the inequality bounds the refused requests from below. Requests and filesystem operations share one counter in the model (w_tick); on S3 only requests advance it in a session, apart from the status queries of the settings check. V3 missing |
| C62 | everything below Api; the reader of ReaderSpec | the reader is run on the parsed documents (PropsMeta) and its reads are those of C01/C02/C07 at the level's own parameters (PropsReader) |
| C63 | S3 requests refused by an arbitrary predicate (`answering`, AnswerSpec); everything below Api | two machines are compared: as long as no request of a run is refused, the run is the same on a machine that answers everything (calculus `agr`, AnswerProofs/AnswerStream; creation, with fewer connections, AnswerCreate); the statuses exclude refusals (RepProofs); the object is therefore there and right (RunProofs, C07), and by C59 no object is uploaded twice |
| C64 | `Conn.v`: the connection pool (get_connection, return_connection) with its mutex and condition variable as an interleaving semantics; the S3Sink methods, finalize_sink and bucket_exists_ as the programs the threads run, written as trees of pool calls and requests | invariant over all steps: connections in the pool, in use and destroyed are a permutation of those made (accounted for, exclusive); sleeping threads imply free connections are matched by threads about to look (no lost wake-up); a ranking bounds the steps; each thread's own steps are a path of its tree, and paths of the tree are runs of the sequential sink of World.v/Writer.v (same as alone), which transports C15/C16 to the threads; the union of the uploads is split by key (stored whole). A run with a refused create-multipart refutes unconditional progress. Sinks handed over from a worker to the client: read a thread of the machine as the life of one sink (its steps are taken by different system threads at different times); the theorems about safety cover all such schedules |
| C65 | as C63 | the part that holds is C63; the rest is refuted by execution (flush_ throws after the row has been written and before write_multiscale_frames_ is called, and reset_ of the buffers is skipped) |
| C66 | the whole session (create, appends, destroy) on a machine on which an arbitrary set of requests fails | a run whose requests are all answered as on another machine is the run on that machine (AnswerProofs, AnswerStream, AnswerSession), function by function; with the fair-use theorems of StoreProofs, RunProofs |

A property whose full statement is false of the code has a theorem `..._refuted` with a concrete witness, and the part that holds
(usually an exact description of what happens) under the same number; MANIFEST.json marks it `partial`.

## 4. Trusted base

* Coq's kernel (`coqc` 8.16.1; `coqchk` accepts the compiled files). `vm_compute` is used in examples and witnesses only.
* `Print Assumptions` says "Closed under the global context" for **every** theorem in MANIFEST.json: no axiom, neither of ours nor of
  the standard library. (`coqchk -o` on the whole development lists seven fields of `Coq.ssr.ssrunder.Under_rel`, a module signature that
  comes in with the standard library's ssreflect plugin files; no theorem here depends on them.)
* The specification files of section 1, in particular the readers in `Spec.v` and the JSON parser in `JsonSpec.v`.
* The transcription of the C++ code into the model files.

### What is modelled

zarr.stream.cpp, array.writer.cpp, zarrv2/zarrv3.array.writer.cpp, zarr.dimension.cpp, file.sink.cpp, s3.sink.cpp, sink.cpp, sink.creator.cpp,
the connection pool and the result of each request of s3.connection.cpp, blosc.compression.params.cpp, thread.pool.cpp, acquire.zarr.cpp, S3ConnectionPool::get_connection and return_connection
(again, as used by threads at the same time, Conn.v: the pool destructor, which runs when nobody can use the pool any more, is left out),
logger.cpp (levels and which messages come out), zarr.common.cpp, vectorized.file.writer.cpp (POSIX), of acquire-zarr-py.cpp: append,
conversion of settings, repr of the S3 settings and of the stream settings, a whole session (create, append, delete). Multi.v: a program with several streams.

### What is not

* The bodies of external libraries: Blosc, nlohmann::json (modelled by its documented result), minio-cpp, std::filesystem, pybind11.
* Memory exhaustion (`std::bad_alloc`, "Failed to allocate" branches), failure to start a thread.
* The Windows branches; opening and closing in vectorized.file.writer.cpp.
* Concurrent use of one stream by several client threads (the interface does not promise it), two streams to the same store, streams used from
  different threads at the same time (their calls are interleaved whole: Multi.v).
* Text of error messages except whether it is empty (the error cell `error_`).
* The iteration order of `unordered_map metadata_sinks_` and `unordered_map` caches: a fixed order is used.
* `path` arithmetic of std::filesystem beyond joining with '/' and cutting at the last '/'.
* Iterator arithmetic past the end that is not followed by an access (`write_frame_to_chunks_`) is not counted as undefined; the access is.

## 5. Wrong programs

`seeded/LOG.jsonl` records edits of the model in a scratch copy (one JSON line per attempt: definition, edit, claim broken, theorems that
failed, theorems tightened afterwards).
