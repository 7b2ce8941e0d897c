{"id": "C01", "title": "Zarr v2 filesystem round trip", "statement": "After ZarrStream_create with valid v2 filesystem settings, any sequence of frame-aligned ZarrStream_append calls and ZarrStream_destroy, a reader following the Zarr v2 layout (path <store>/0/<c0>/.../<cx>, C order inside a chunk, fill value 0) reads at every in-bounds index of the declared shape exactly the byte that was appended for that pixel.", "quantifier": "all valid dimension lists (any rank >= 3, ragged or chunk > array), data types, frame contents, numbers of frames and groupings of frames into append calls, up to machine-integer limits that are stated explicitly", "why_tests_cant": "Unit tests fix one or two shapes and mostly check file sizes; the claim is about every shape, every frame count and every byte.", "anchors": ["src/streaming/array.writer.cpp: write_frame, write_frame_to_chunks_, flush_", "src/streaming/zarrv2.array.writer.cpp: flush_impl_", "src/streaming/zarr.stream.cpp: append", "src/streaming/zarr.dimension.cpp"]}
{"id": "C02", "title": "Zarr v3 sharded filesystem round trip", "statement": "The same for version 3: a reader using the sharding index at the end of every shard file <store>/data/root/0/c<s0>/.../<sx> reads back exactly the appended bytes at every in-bounds index.", "quantifier": "all valid dimension lists with any shard sizes, all frame contents and counts", "why_tests_cant": "Tests check only shard file sizes for fixed shapes; none decodes the index for all shapes.", "anchors": ["src/streaming/zarrv3.array.writer.cpp: flush_impl_", "src/streaming/zarr.dimension.cpp: shard_index_for_chunk, shard_internal_index"]}
{"id": "C03", "title": "Append is insensitive to how the byte stream is cut into calls", "statement": "Appending the same bytes in one call or in any number of calls of arbitrary sizes produces the same stored data.", "quantifier": "all byte streams and all ways to cut them", "why_tests_cant": "There are infinitely many ways of cutting a stream; tests append whole frames.", "anchors": ["src/streaming/zarr.stream.cpp: append"]}
{"id": "C04", "title": "bytes_out reports the bytes consumed", "statement": "When ZarrStream_append returns Success, *bytes_out equals the number of input bytes consumed and never exceeds bytes_in; for frame-aligned input it equals bytes_in.", "quantifier": "all stream states and all inputs", "why_tests_cant": "Depends on the buffered partial frame left by the entire call history.", "anchors": ["src/streaming/zarr.stream.cpp: append", "src/streaming/acquire.zarr.cpp: ZarrStream_append"]}
{"id": "C05", "title": "Append never reads outside the caller's buffer", "statement": "ZarrStream_append(stream, data, n, ..) reads only data[0..n).", "quantifier": "all call histories and all n", "why_tests_cant": "An out-of-bounds read is usually invisible to a test.", "anchors": ["src/streaming/zarr.stream.cpp: append"]}
{"id": "C06", "title": "The declared array shape is exactly the space covered by the appended frames", "statement": "The shape stored in the array metadata has first extent ceil(frames / product of the inner non-spatial extents): every appended frame lies inside the shape and no smaller first extent would contain them.", "quantifier": "all frame counts and dimension lists", "why_tests_cant": "Nested integer ceilings over arbitrary rank.", "anchors": ["src/streaming/zarrv2.array.writer.cpp: write_array_metadata_", "src/streaming/zarrv3.array.writer.cpp: write_array_metadata_"]}
{"id": "C07", "title": "Elements never written read as the fill value, never as stale data", "statement": "Elements of a stored chunk not covered by an appended frame (ragged edges, a partly filled last chunk) are zero, also after any number of earlier chunks passed through the same buffers.", "quantifier": "all histories of frames and flushes", "why_tests_cant": "Stale data appears only for particular histories.", "anchors": ["src/streaming/array.writer.cpp: make_buffers_, flush_"]}
{"id": "C08", "title": "Frame-to-chunk addressing is a bijection onto in-bounds elements", "statement": "Every pixel of every frame has exactly one (chunk, offset) location, distinct pixels between two flushes never share a location, and locations stay inside the chunk buffers.", "quantifier": "all dimension lists, frame numbers, pixels", "why_tests_cant": "Injectivity over all pairs of frames and pixels of all shapes.", "anchors": ["src/streaming/zarr.dimension.cpp: tile_group_offset, chunk_internal_offset, chunk_lattice_index", "src/streaming/array.writer.cpp: write_frame_to_chunks_"]}
{"id": "C09", "title": "Stored chunks have the declared size and the declared number", "statement": "For uncompressed v2 arrays every stored chunk has exactly product(chunk shape) * bytes-per-pixel bytes, and each flush creates exactly one file for each coordinate of the chunk grid of the non-append dimensions.", "quantifier": "all dimension lists", "why_tests_cant": "Grid enumeration over arbitrary rank.", "anchors": ["src/streaming/sink.creator.cpp: make_data_sink_paths_, make_files_", "src/streaming/zarr.dimension.cpp: bytes_per_chunk, number_of_chunks_in_memory"]}
{"id": "C10", "title": "Chunks are partitioned over shards", "statement": "Every chunk is assigned exactly one shard and one slot of that shard, no two chunks of one flush share a slot, every shard receives at least one chunk, shard and slot agree with the Zarr coordinates (coordinate div / mod shard size).", "quantifier": "all dimension lists and chunk indices", "why_tests_cant": "The unit tests enumerate one lattice.", "anchors": ["src/streaming/zarr.dimension.cpp: shard_index_for_chunk, shard_internal_index, number_of_shards, chunks_per_shard"]}
{"id": "C11", "title": "The shard index is well formed", "statement": "In every finished shard file each index entry is either empty (2^64-1, 2^64-1) or an (offset, size) pair lying before the index, entries of distinct chunks do not overlap, and the index occupies the last 16 * chunks-per-shard bytes.", "quantifier": "all flush histories", "why_tests_cant": "Offsets depend on the whole history of (compressed) chunk sizes.", "anchors": ["src/streaming/zarrv3.array.writer.cpp: flush_impl_"]}
{"id": "C12", "title": "Shards spanning several chunks along the append dimension keep all their chunks", "statement": "When the append dimension has shard_size_chunks >= 2, each of the chunks appended into one shard can be found through the shard index.", "quantifier": "all dimension lists with append shard size >= 2", "why_tests_cant": "Needs a reader and several flushes per shard.", "anchors": ["src/streaming/zarrv3.array.writer.cpp: flush_impl_", "src/streaming/zarr.dimension.cpp: shard_internal_index"]}
{"id": "C13", "title": "Destroying a v3 stream makes everything readable wherever it stops", "statement": "Whatever the number of appended frames, after ZarrStream_destroy every started shard has its index and the array metadata covers all frames.", "quantifier": "all numbers of frames", "why_tests_cant": "Fails only when the last append ends on a chunk boundary that is not a shard boundary.", "anchors": ["src/streaming/array.writer.cpp: flush_, finalize_array", "src/streaming/zarrv3.array.writer.cpp: should_rollover_"]}
{"id": "C14", "title": "S3 round trip", "statement": "With S3 settings and a store that accepts all requests, after ZarrStream_destroy the bucket contains every chunk or shard object and the metadata, with the same contents as the filesystem store would have.", "quantifier": "all dimension lists, versions and frame counts", "why_tests_cant": "Upload happens only on finalization of each sink; needs a full history.", "anchors": ["src/streaming/s3.sink.cpp", "src/streaming/array.writer.cpp: close_sinks_, finalize_array"]}
{"id": "C15", "title": "Sequential S3 writes reassemble", "statement": "For any sequence of writes at consecutive offsets, the finished object is the concatenation of the data; all parts but the last have 5 MiB and parts are numbered 1, 2, ... in order.", "quantifier": "all sequences and sizes of writes", "why_tests_cant": "Part boundaries interact with write sizes in unboundedly many ways.", "anchors": ["src/streaming/s3.sink.cpp: write, flush_part_, flush_, finalize_multipart_upload_"]}
{"id": "C16", "title": "A failed S3 part upload never yields a silently truncated object", "statement": "If uploading a part fails, the object is not completed as if it were whole.", "quantifier": "all failure patterns", "why_tests_cant": "Requires failure injection at every request.", "anchors": ["src/streaming/s3.sink.cpp: flush_part_, flush_"]}
{"id": "C17", "title": "The S3 connection pool loses no connection", "statement": "After any sequence of sink operations, including failing requests, all connections are back in the pool, so that no later request blocks forever.", "quantifier": "all operation sequences and failure patterns", "why_tests_cant": "A leak needs a failing request and shows only as a later hang.", "anchors": ["src/streaming/s3.connection.cpp: get_connection, return_connection", "src/streaming/s3.sink.cpp: create_multipart_upload_, finalize_multipart_upload_"]}
{"id": "C18", "title": "Thread pool runs each accepted job exactly once", "statement": "Every job accepted by the pool is started once, in acceptance order, and finished before the stop operation returns; after stop no job is accepted.", "quantifier": "all interleavings of client and any number of workers, all job sequences", "why_tests_cant": "Interleavings cannot be enumerated by tests.", "anchors": ["src/streaming/thread.pool.cpp: push_job, await_stop, process_tasks_"]}
{"id": "C19", "title": "Thread pool never gets stuck", "statement": "While a job is queued some worker can run; after stop every worker terminates after finitely many steps.", "quantifier": "all interleavings, including spurious wake-ups", "why_tests_cant": "Lost wake-ups depend on timing.", "anchors": ["src/streaming/thread.pool.cpp: process_tasks_, push_job, await_stop"]}
{"id": "C20", "title": "Append blocks until its chunks are written", "statement": "When ZarrStream_append returns after a flush, each chunk write handed to the worker threads has been performed.", "quantifier": "all interleavings", "why_tests_cant": "Depends on scheduling.", "anchors": ["src/streaming/zarrv2.array.writer.cpp: flush_impl_", "src/streaming/zarrv3.array.writer.cpp: flush_impl_", "src/streaming/thread.pool.cpp"]}
{"id": "C21", "title": "The stored result does not depend on thread scheduling", "statement": "As long as no storage request fails: for every interleaving of the parallel compression and write jobs of a flush the contents of every file and of every object are the same, and so is the reported error.", "quantifier": "all interleavings of job steps, all numbers of worker threads, all earlier uses of the pool, both formats, both kinds of store", "why_tests_cant": "Exponentially many interleavings.", "anchors": ["src/streaming/zarrv2.array.writer.cpp: flush_impl_", "src/streaming/zarrv3.array.writer.cpp: flush_impl_"]}
{"id": "C22", "title": "A failed background write is reported", "statement": "If a worker job fails to write its chunk, a later ZarrStream_append returns an error.", "quantifier": "all failure patterns, both versions, all interleavings", "why_tests_cant": "Needs failure injection and particular schedules.", "anchors": ["src/streaming/thread.pool.cpp: process_tasks_", "src/streaming/zarr.stream.cpp: set_error_, append", "src/streaming/zarrv3.array.writer.cpp: flush_impl_"]}
{"id": "C23", "title": "Filesystem write errors are reported", "statement": "If the operating system refuses a write to a chunk or metadata file, append (or the next append) reports an error.", "quantifier": "all failure patterns of the filesystem", "why_tests_cant": "Needs failure injection on each write.", "anchors": ["src/streaming/file.sink.cpp: write, flush_"]}
{"id": "C24", "title": "Settings validation", "statement": "ZarrStream_create returns a stream only for settings that satisfy the documented constraints (version 2 or 3, non-empty store path, valid S3 or path settings, known data type and compression values, valid JSON metadata, at least three dimensions ending in two Space dimensions, non-empty names, non-zero chunk sizes, non-zero extents except append, non-zero shard sizes for v3); rejected settings leave an existing store untouched.", "quantifier": "all settings values including null pointers", "why_tests_cant": "The settings space is unbounded.", "anchors": ["src/streaming/zarr.stream.cpp: validate_settings, validate_dimension, validate_compression_settings, validate_s3_settings, create_store_"]}
{"id": "C25", "title": "Creating a multiscale stream terminates", "statement": "ZarrStream_create with multiscale enabled builds finitely many resolution levels for every valid setting.", "quantifier": "all valid dimension lists", "why_tests_cant": "Non-termination cannot be observed by a finite test.", "anchors": ["src/streaming/zarr.stream.cpp: create_writers_", "src/streaming/array.writer.cpp: downsample"]}
{"id": "C26", "title": "Pyramid level shapes", "statement": "Level k has extent ceil(extent / 2^k) in every non-channel dimension, the same extent in channel dimensions, and the downscaled frame passed to level k has exactly the byte size that level expects.", "quantifier": "all dimension lists and levels", "why_tests_cant": "Unbounded number of levels and odd/even combinations.", "anchors": ["src/streaming/array.writer.cpp: downsample", "src/streaming/zarr.stream.cpp: scale_image, write_multiscale_frames_"]}
{"id": "C27", "title": "Pyramid level frame counts", "statement": "After n frame-aligned frames level k contains floor(n / 2^k) frames and each is the pairwise average of two consecutive level k-1 frames after 2x2 reduction.", "quantifier": "all n and numbers of levels", "why_tests_cant": "Binary-counter behaviour over unbounded histories.", "anchors": ["src/streaming/zarr.stream.cpp: write_multiscale_frames_"]}
{"id": "C28", "title": "Downscaled pixels are local means for every data type", "statement": "Each pixel of a downscaled frame is the mean of its 2x2 source pixels (edges replicated) for each supported data type.", "quantifier": "all frames, shapes and data types", "why_tests_cant": "The integration tests do not check pyramid pixel values.", "anchors": ["src/streaming/zarr.stream.cpp: scale_image"]}
{"id": "C29", "title": "The pyramid does not mix channels or slices", "statement": "A level-1 frame stored for channel c is computed from level-0 frames of channel c only.", "quantifier": "all dimension lists with inner dimensions", "why_tests_cant": "Needs semantic reading of stored levels for all shapes.", "anchors": ["src/streaming/zarr.stream.cpp: write_multiscale_frames_", "src/streaming/array.writer.cpp: downsample"]}
{"id": "C30", "title": "Multiscale streaming uses bounded memory", "statement": "The number of live intermediate frames is bounded by the number of levels regardless of how many frames are appended, and destroy frees all.", "quantifier": "all histories", "why_tests_cant": "A leak is a property of unbounded histories.", "anchors": ["src/streaming/zarr.stream.cpp: write_multiscale_frames_, finalize_stream"]}
{"id": "C31", "title": "Compressed chunks decode to the appended data", "statement": "With compression enabled and a compressor that succeeds, decoding each stored chunk yields exactly the uncompressed chunk; chunk sizes in the shard index are the compressed sizes.", "quantifier": "all data and all compressors that have a left inverse", "why_tests_cant": "Quantifies over the compressor and all data.", "anchors": ["src/streaming/array.writer.cpp: compress_buffers_"]}
{"id": "C32", "title": "Compression settings mean what they say", "statement": "If compression settings are given with compressor None, the data are stored uncompressed and readable; accepted settings never lead to undecodable chunks.", "quantifier": "all accepted compression settings", "why_tests_cant": "Interaction of validation, codec names and compressor errors.", "anchors": ["src/streaming/zarr.stream.cpp: validate_compression_settings, create_writers_", "src/streaming/blosc.compression.params.cpp"]}
{"id": "C33", "title": "Rewriting metadata in place leaves a complete document", "statement": "Array metadata is rewritten at offset 0 without truncation; after each rewrite the file contains exactly the new document with no leftover bytes of an older one.", "quantifier": "all histories of frame counts", "why_tests_cant": "Depends on the lengths of all successive documents.", "anchors": ["src/streaming/file.sink.cpp", "src/streaming/zarrv2.array.writer.cpp: write_array_metadata_", "src/streaming/zarr.stream.cpp: write_group_metadata_"]}
{"id": "C34", "title": "Data type names agree with the data width", "statement": "The dtype string written in v2 and v3 metadata is different for each data type and its width equals the bytes per pixel used for layout.", "quantifier": "all data types", "why_tests_cant": "Consistency of three independent tables.", "anchors": ["src/streaming/zarrv2.array.writer.cpp: sample_type_to_dtype", "src/streaming/zarrv3.array.writer.cpp: sample_type_to_dtype", "src/streaming/zarr.common.cpp: bytes_of_type"]}
{"id": "C35", "title": "Multiscale metadata describes the stored levels", "statement": "The OME metadata lists one dataset per stored level with path equal to the level number, and the scale factors equal the ratio of the extents of level 0 and level k in each dimension.", "quantifier": "all dimension lists and levels", "why_tests_cant": "Consistency between two separately computed tables for every rank.", "anchors": ["src/streaming/zarr.stream.cpp: make_multiscale_metadata_", "src/streaming/array.writer.cpp: downsample"]}
{"id": "C36", "title": "Every metadata file in a finished store is a JSON document", "statement": "After ZarrStream_destroy each metadata file the library created is non-empty and holds a JSON document, and custom metadata is preserved.", "quantifier": "all settings and histories", "why_tests_cant": "Some files are created but only written on some paths.", "anchors": ["src/streaming/sink.creator.cpp: make_metadata_sink_paths_", "src/streaming/zarr.stream.cpp: write_external_metadata_"]}
{"id": "C37", "title": "Crash consistency of array metadata", "statement": "If the process dies at any point, array metadata found on disk never declares frames whose chunks are not completely on disk.", "quantifier": "all crash points and all prefixes of buffered file data", "why_tests_cant": "Crash points are unbounded.", "anchors": ["src/streaming/array.writer.cpp: flush_, rollover_, finalize_array", "src/streaming/file.sink.cpp"]}
{"id": "C38", "title": "Stored objects never collide", "statement": "Distinct chunks (of any append index and any level) and metadata documents have distinct paths.", "quantifier": "all levels, append indices and grid coordinates", "why_tests_cant": "Injectivity of string formatting over all numbers.", "anchors": ["src/streaming/sink.creator.cpp: make_data_sink_paths_", "src/streaming/array.writer.cpp: make_data_sinks_, make_metadata_sink_"]}
{"id": "C39", "title": "Dimension array ownership", "statement": "Any sequence of ZarrStreamSettings_create_dimension_array / destroy_dimension_array calls on zero-initialised settings neither leaks nor double-frees: exactly the current array is live, a failed create changes nothing.", "quantifier": "all call sequences", "why_tests_cant": "Memory errors depend on the history.", "anchors": ["src/streaming/acquire.zarr.cpp: ZarrStreamSettings_create_dimension_array, ZarrStreamSettings_destroy_dimension_array"]}
{"id": "C40", "title": "Log level and status API", "statement": "Zarr_get_log_level returns the level most recently set successfully, invalid levels are rejected without effect, a message is emitted iff its level is at least the current one, and each status code has its own message.", "quantifier": "all sequences of calls", "why_tests_cant": "History property.", "anchors": ["src/streaming/acquire.zarr.cpp: Zarr_set_log_level, Zarr_get_log_level, Zarr_get_status_message", "src/logger/logger.hh: log", "src/logger/logger.cpp"]}
{"id": "C41", "title": "Whitespace trimming of settings strings", "statement": "Trimming removes exactly the maximal leading and trailing whitespace, is idempotent, and a string counts as empty iff all of its characters are whitespace.", "quantifier": "all strings", "why_tests_cant": "All strings.", "anchors": ["src/streaming/zarr.common.cpp: trim, is_empty_string"]}
{"id": "C42", "title": "Python append stores the array the caller sees", "statement": "ZarrStream.append(a) appends the elements of the numpy array a in C order.", "quantifier": "all shapes and strides", "why_tests_cant": "Tests pass contiguous arrays.", "anchors": ["python/acquire-zarr-py.cpp: PyZarrStream::append"]}
{"id": "C43", "title": "Vectorized file writes go to the requested offset", "statement": "write_vectors(buffers, offset) places the concatenation of the buffers at offset and reports success only if all bytes were written; alignment rounds up to the next page multiple.", "quantifier": "all buffers, offsets and sizes", "why_tests_cant": "Large offsets are never tested.", "anchors": ["src/streaming/vectorized.file.writer.cpp: write_vectors, align_to_page_"]}
{"id": "C44", "title": "Integer widths", "statement": "Index and size computations agree with exact arithmetic for every accepted setting and every number of frames.", "quantifier": "all accepted settings", "why_tests_cant": "Wrap-around needs sizes no test allocates.", "anchors": ["src/streaming/zarr.dimension.cpp", "src/streaming/array.writer.hh: frames_written_", "src/streaming/zarr.common.cpp"]}
{"id": "C45", "title": "Destroy leaves no background activity", "statement": "When ZarrStream_destroy returns, every writer has been flushed or the failure was logged, all jobs are done and all worker threads have exited.", "quantifier": "all histories and interleavings", "why_tests_cant": "Interleavings.", "anchors": ["src/streaming/zarr.stream.cpp: finalize_stream", "src/streaming/thread.pool.cpp: await_stop", "src/streaming/acquire.zarr.cpp: ZarrStream_destroy"]}
{"id": "C46", "title": "Sink creation reports failures", "statement": "If creating any of the directories or files of a flush fails, the creation step reports failure to its caller.", "quantifier": "all interleavings and failure patterns", "why_tests_cant": "The order of two adjacent instructions matters only on rare schedules.", "anchors": ["src/streaming/sink.creator.cpp: make_dirs_, make_files_"]}
{"id": "C47", "title": "Python repr does not disclose the S3 secret", "statement": "The repr of S3 settings shows at most the first five characters of the secret access key.", "quantifier": "all secrets", "why_tests_cant": "All strings.", "anchors": ["python/acquire-zarr-py.cpp: PyZarrS3Settings::repr"]}
{"id": "C48", "title": "A stream changes nothing outside its store", "statement": "Whatever the settings, calls, faults and outcomes, using a stream on the filesystem changes only files and directories at or below the store path (and creates missing parent directories of it); on S3 only objects of the bucket whose key lies below the store path.", "quantifier": "all settings, histories of calls and fault patterns", "why_tests_cant": "A test can inspect only some places, faults and histories.", "anchors": ["src/streaming/zarr.stream.cpp: create_store_", "src/streaming/sink.creator.cpp", "src/streaming/array.writer.cpp"]}
{"id": "C49", "title": "Python settings reach the library unchanged", "statement": "The settings object given to the Python stream constructor is what the library is created with: every string, dimension, compression and S3 setting.", "quantifier": "all settings objects", "why_tests_cant": "All strings and all dimension lists.", "anchors": ["python/acquire-zarr-py.cpp: PyZarrStream::PyZarrStream"]}
{"id": "C50", "title": "No file descriptor is leaked and the number of open files is bounded", "statement": "Every file a stream opens is closed again by the time ZarrStream_create has failed or ZarrStream_destroy has returned, and while a stream is in use the number of files it has open is bounded by a number that depends on its settings only, not on how much was appended.", "quantifier": "all settings, append histories, failure patterns", "why_tests_cant": "A leak shows only in long runs or on failure paths; the bound must hold for every number of frames.", "anchors": ["src/streaming/file.sink.cpp: FileSink::FileSink, FileSink::~FileSink", "src/streaming/array.writer.cpp: ArrayWriter::close_sinks_", "src/streaming/sink.creator.cpp: SinkCreator::make_files_", "src/streaming/zarr.stream.cpp: finalize_stream"]}
{"id": "C51", "title": "Status codes of the C API", "statement": "ZarrStream_append with a null stream, null data or null bytes_out returns InvalidArgument, changes nothing and does not write *bytes_out; otherwise it returns Success and writes *bytes_out, or InternalError and leaves it alone, the latter exactly when appending failed; after an error every later append call returns InternalError without effect. ZarrStream_create returns NULL exactly when the stream could not be constructed, and at once for null settings. No exception leaves either function.", "quantifier": "for all arguments, streams, states of the machine and failures of it", "why_tests_cant": "Each failing step would have to be provoked at each point of a call", "anchors": ["src/streaming/acquire.zarr.cpp: ZarrStream_create, ZarrStream_append, EXPECT_VALID_ARGUMENT", "include/zarr.types.h: ZarrStatusCode", "src/streaming/zarr.stream.cpp: ZarrStream_s::append"]}
{"id": "C52", "title": "No undefined behaviour, whatever the machine does", "statement": "For settings whose sizes fit the integer types of the code and append calls of whole frames, create, append and destroy never run into undefined behaviour, whatever the filesystem, the S3 server and the compressor refuse and whenever they do so; on a filesystem every call returns; every append call reports success with all its bytes or an error; and a frame whose append call succeeded is not overwritten by a later one.", "quantifier": "for all settings within the size limits, all contents of the disk, all sequences of append calls and all patterns of failures", "why_tests_cant": "The failure patterns are infinitely many (every subset of the requests made to the machine)", "anchors": ["src/streaming/array.writer.cpp: flush_, close_sinks_, finalize_array", "src/streaming/zarrv2.array.writer.cpp: flush_impl_", "src/streaming/zarrv3.array.writer.cpp: flush_impl_", "src/streaming/zarr.stream.cpp: append, finalize_stream"]}
{"id": "C53", "title": "No stray files, whatever the machine does", "statement": "Every file or object a stream creates, writes, uploads or closes is a metadata document of the store, the array document of one of its levels, or a chunk or shard whose coordinates lie inside the grid of its level and whose row holds frames of that level (n/2^i frames at level i for n appended frames); also when requests to the machine fail.", "quantifier": "for all settings within the size limits, all sequences of append calls of whole frames, all contents of the disk and all patterns of failing requests", "why_tests_cant": "The files depend on every failure pattern and on the state a failed call leaves behind; tests see a few successful runs.", "anchors": ["src/streaming/sink.creator.cpp: make_data_sinks, make_metadata_sinks", "src/streaming/array.writer.cpp: flush_, rollover_, finalize_array", "src/streaming/zarr.stream.cpp: write_multiscale_frames_, finalize_stream"]}
{"id": "C54", "title": "No background job touches variables of a call that has returned", "statement": "The jobs a call hands to the thread pool capture local variables of the call (the latch, the success flag, tables) by reference. Once the call has got past its latch and returned, no job it pushed is queued or running any more steps, on any schedule.", "quantifier": "for all numbers of worker threads, all interleavings of workers and caller, all sequences of calls", "why_tests_cant": "the window between the last count-down and the end of the job is a few instructions wide; a test hits it by luck only, and then corrupts memory silently", "anchors": ["src/streaming/sink.creator.cpp: make_dirs_, make_files_", "src/streaming/zarrv2.array.writer.cpp: flush_impl_", "src/streaming/zarrv3.array.writer.cpp: flush_impl_", "src/streaming/array.writer.cpp: compress_buffers_", "src/streaming/thread.pool.cpp: process_tasks_"]}
{"id": "C55", "title": "The recorded error is not accessed by two threads at once", "statement": "The error text of a stream is a plain std::string that worker threads assign when a job fails and that append reads. On no schedule are two threads about to access it at the same time with one of them writing (a data race, undefined behaviour in C++).", "quantifier": "for all numbers of worker threads, all interleavings, all sets of failing jobs", "why_tests_cant": "needs two failures, or a failure and a later append, within the same microsecond", "anchors": ["src/streaming/zarr.stream.cpp: set_error_, append, ZarrStream_s", "src/streaming/thread.pool.cpp: process_tasks_"]}
{"id": "C56", "title": "Appending uses bounded memory", "statement": "The image data a stream keeps in memory between two calls (the incomplete frame, the chunks of all levels not yet written, the part buffers of open objects) is bounded by a number that depends on the settings only: not on how many frames or calls there were, nor on their contents, nor on what failed.", "quantifier": "for all settings, all sequences of append calls, all contents, all compressors that add at most their header, all patterns of failing requests", "why_tests_cant": "a test appends a few frames; growth per failed flush or per million frames shows in long acquisitions only", "anchors": ["src/streaming/array.writer.cpp: make_buffers_, compress_buffers_, flush_, write_frame_to_chunks_", "src/streaming/zarr.stream.cpp: append", "src/streaming/s3.sink.hh: part_buffer_"]}
{"id": "C57", "title": "What Python appended is what is stored", "statement": "When a Python program makes a stream, appends NumPy arrays of shape (H, W) or (k, H, W) with elements of the stream's data type and deletes the stream, no call raises, and a reader of the store finds at every pixel the value that Python showed at that pixel of the image appended for that position.", "quantifier": "for all documented settings given in Python, all sequences of arrays, all memory contents, chunk shapes and data types, file and S3 stores", "why_tests_cant": "tests append a few contiguous arrays of one shape and compare whole arrays", "anchors": ["python/acquire-zarr-py.cpp: PyZarrStream::PyZarrStream, append, ZarrStreamDeleter", "src/streaming/acquire.zarr.cpp: ZarrStream_create, ZarrStream_append, ZarrStream_destroy", "src/streaming/array.writer.cpp: write_frame", "src/streaming/zarr.stream.cpp: append"]}
{"id": "C58", "title": "Streams to separate stores do not influence each other", "statement": "In a program that uses several streams whose stores are different buckets, or paths of which none contains the other, every stream behaves as if it were the only one: every ZarrStream_create, ZarrStream_append and ZarrStream_destroy returns what it returns when the other streams do not exist, the operations in its store are the same in the same order, a reader finds the same files, directories and objects, and the failures and wrong uses of one stream do not make the calls of another fail or be undefined.", "quantifier": "for all sets of streams with separate stores, all settings, all buffers appended, all orders in which the calls of the different streams are made, all failures of the machine and the S3 server", "why_tests_cant": "the orders of the calls of several streams and the failures of each are unbounded in number; tests use one stream at a time", "anchors": ["src/streaming/acquire.zarr.cpp: ZarrStream_create, ZarrStream_append, ZarrStream_destroy", "src/streaming/zarr.stream.hh: ZarrStream_s", "src/streaming/zarr.stream.cpp: ZarrStream_s, append, finalize_stream, create_store_", "src/streaming/sink.creator.cpp: make_dirs_, make_files_", "src/logger/logger.hh: Logger"]}
{"id": "C59", "title": "Objects on S3 appear whole, once, and never change again", "statement": "A stream uploads each object of its store (chunk, shard or metadata document) at most once in its life, whatever requests fail and whatever is appended, as long as fewer than 2^32 frames are given. So at every moment, also if the process is killed there, a reader finds each object either as it was before the stream was created or as it is at the end; no half-written object is ever visible, and an object that has changed does not change again.", "quantifier": "for all settings, all buffers and call sequences of fewer than 2^32 frames, all objects, all failures of S3 requests and of the machine, all moments of the session", "why_tests_cant": "the moments at which a reader looks or the process dies, the patterns of failing requests and the lengths of streams are unbounded in number", "anchors": ["src/streaming/s3.sink.cpp: flush_, put_object_, finalize_multipart_upload_", "src/streaming/sink.cpp: finalize_sink", "src/streaming/array.writer.cpp: close_sinks_, rollover_, finalize_array", "src/streaming/zarrv2.array.writer.cpp: flush_impl_", "src/streaming/zarrv3.array.writer.cpp: flush_impl_", "src/streaming/zarr.stream.cpp: create_metadata_sinks_, finalize_stream"]}
{"id": "C60", "title": "On S3 the array document appears last", "statement": "Once a stream has uploaded the array document of a level (.zarray, or *.array.json in Zarr v3), it uploads no chunk or shard of that level any more, whatever requests fail and whatever is appended, as long as fewer than 2^32 frames are given. So at every moment, also if the process is killed there, a reader who finds the array document of this stream finds the document and every chunk or shard of the level exactly as they are at the end.", "quantifier": "for all settings with S3, all buffers and call sequences of fewer than 2^32 frames, all levels, all chunks and shards, all failures of S3 requests, all moments of the session", "why_tests_cant": "the moments at which a reader looks or the process dies and the patterns of failing requests are unbounded in number", "anchors": ["src/streaming/array.writer.cpp: flush_, finalize_array, close_sinks_, rollover_", "src/streaming/zarrv2.array.writer.cpp: flush_impl_", "src/streaming/zarrv3.array.writer.cpp: flush_impl_", "src/streaming/zarr.stream.cpp: finalize_stream", "src/streaming/sink.cpp: finalize_sink", "src/streaming/s3.sink.cpp: flush_"]}
{"id": "C61", "title": "A stream on S3 waits for ever only after many refused requests", "statement": "If one of the calls on a stream (create, an append, destroy) never returns because it waits for a connection, then during this session the server has refused at least half as many requests as the stream has connections. In particular, while fewer requests than that are refused, every call returns.", "quantifier": "for all settings with S3, all buffers and call sequences of whole frames, all patterns of refused requests, all numbers of connections", "why_tests_cant": "the patterns of refused requests and the lengths of sessions are unbounded, and a call that never returns cannot be observed by a test", "anchors": ["src/streaming/s3.connection.cpp: S3ConnectionPool, get_connection, return_connection", "src/streaming/s3.sink.cpp: put_object_, create_multipart_upload_, flush_part_, finalize_multipart_upload_", "src/streaming/zarrv2.array.writer.cpp: flush_impl_", "src/streaming/array.writer.cpp: close_sinks_, finalize_array"]}
{"id": "C62", "title": "The store describes itself", "statement": "After a session in which every call succeeded, a Zarr reader that is told only the location and the format version finds everything else in the documents: the root group lists the levels; the array document of each level that received frames is accepted by the reader and gives the level's extents, chunk and shard shapes, data type and compressor; and the elements the reader then computes are the appended ones (level 0) or the downsampled ones (other levels), 0 where nothing was appended.", "quantifier": "every settings value as documented (v2 and v3, file system and S3, every data type, compressor and number of dimensions), every sequence of append calls of whole frames, every level and every element", "why_tests_cant": "The documents and the chunks are written by different functions from different copies of the settings; agreement must hold for every combination of type, extents, chunks, shards, compressor and number of frames, a space no set of tests covers.", "anchors": ["src/streaming/zarrv2.array.writer.cpp: write_array_metadata_, flush_impl_", "src/streaming/zarrv3.array.writer.cpp: write_array_metadata_, flush_impl_", "src/streaming/zarr.stream.cpp: write_base_metadata_, write_group_metadata_, make_multiscale_metadata_", "src/streaming/array.writer.cpp: make_data_sinks_"]}
{"id": "C63", "title": "Acknowledged data is durable on S3", "statement": "If all append calls of a stream to S3 up to some point succeeded, and so did the next one, then the objects of every row of chunks that the frames given up to that point complete are in the bucket, at every level, right in every byte; and they stay there unchanged, whichever later requests S3 refuses, whatever is appended later, and whenever the process is killed.", "quantifier": "every fair use (settings, frames, grouping into calls), every pattern of refused requests before and after, every later sequence of append calls, every later moment", "why_tests_cant": "It ranges over all patterns of refused requests, all later histories and all moments at which the process may die.", "anchors": ["src/streaming/zarr.stream.cpp: append, set_error_, create_store_", "src/streaming/array.writer.cpp: flush_, close_sinks_, compress_buffers_", "src/streaming/zarrv2.array.writer.cpp: flush_impl_", "src/streaming/zarrv3.array.writer.cpp: flush_impl_", "src/streaming/s3.sink.cpp", "src/streaming/s3.connection.cpp"]}
{"id": "C64", "title": "Threads share the S3 connections safely", "statement": "However many threads write objects to S3 at the same time over however few connections: no connection is used by two threads at once; none is lost unless a request is refused; no thread sleeps while a connection is free that nobody is about to take; as long as a connection is left every thread gets its turn and finishes; and what each thread uploads and reports is what it would upload and report if it were alone, so that objects reported as written are in the bucket, whole and unmixed.", "quantifier": "every number of connections and threads, every list of objects and writes per thread, every answer of the server to every request, every interleaving, spurious wake-ups included", "why_tests_cant": "It ranges over all thread schedules, all answers of the server and all numbers of threads and connections.", "anchors": ["src/streaming/s3.connection.cpp: S3ConnectionPool::get_connection, return_connection", "src/streaming/s3.sink.cpp: write, flush_, put_object_, create_multipart_upload_, flush_part_, finalize_multipart_upload_", "src/streaming/sink.cpp: finalize_sink", "src/streaming/sink.creator.cpp: bucket_exists_"]}
{"id": "C65", "title": "A refused S3 request never leaves wrong data", "statement": "Whichever requests S3 refuses, whatever the append calls report: a chunk object that is in the bucket afterwards holds the data of the frames that belong at its place, at every level; data can only be missing.", "quantifier": "every fair use (settings, frames, grouping into calls), every pattern of refused requests", "why_tests_cant": "It ranges over all patterns of refused requests and all later histories.", "anchors": ["src/streaming/array.writer.cpp: write_frame, flush_, rollover_", "src/streaming/zarr.stream.cpp: append, write_multiscale_frames_"]}
{"id": "C66", "title": "Nothing goes wrong unless a request fails", "statement": "If none of the requests a stream made to the machine (creating, removing, opening files and directories, writing, S3 requests) failed, then every call succeeded and the store is the one a machine without faults would give. So whenever create gives no stream, an append reports an error, destroy does not delete the stream or throws, or a call crashes or never returns, a request had failed before, during this session. The same holds for a Python program: no exception and no crash unless a request failed before.", "quantifier": "every fair use (settings, frames, grouping into calls), both kinds of store, both versions of Zarr, every pattern of failing requests, every call of the session", "why_tests_cant": "It ranges over all settings, inputs and patterns of failures.", "anchors": ["include/acquire.zarr.h: ZarrStream_create, ZarrStream_append, ZarrStream_destroy", "src/streaming/zarr.stream.cpp: ZarrStream_s, append, finalize_stream", "src/streaming/s3.connection.cpp", "src/streaming/file.sink.cpp"]}
