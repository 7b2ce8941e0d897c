{"claims": [
 {"property": "C01", "status": "proved", "theorems": ["C01_v2_filesystem_round_trip"], "note": "whole-frame append calls (the documented use); other calls are C03"},
 {"property": "C02", "status": "partial", "theorems": ["C02_v3_filesystem_round_trip_partial", "C12_only_the_last_chunk_of_a_shard_is_reachable", "C12_refuted", "C13_refuted", "C14_v3_full_rows_partial"], "note": "proved for append shard size 1 and any number of frames; refuted for larger append shards (defect: append coordinate inside a shard is always 0)"},
 {"property": "C03", "status": "partial", "theorems": ["C03_C04_unsplit_frames_partial", "C03_cutting_partial", "C03_C04_C05_exact", "C03_refuted"], "note": "proved for every cutting that splits no frame between calls (the whole machine state is the same); refuted in general: a frame finished by a later call is written from that call's buffer. C03_C04_C05_exact says exactly what is written for calls of any sizes (no multiscale)"},
 {"property": "C04", "status": "partial", "theorems": ["C04_bytes_out_whole_frames_partial", "C03_C04_unsplit_frames_partial", "C03_C04_C05_exact", "C04_refuted"], "note": "proved when no call finishes an earlier call's frame; refuted otherwise (bytes counted twice, bytes_out > bytes_in)"},
 {"property": "C05", "status": "partial", "theorems": ["C05_calls_of_a_frame_or_more_partial", "C03_C04_C05_exact", "C05_refuted"], "note": "exact condition for reading outside; proved for calls of at least a frame as documented; refuted for smaller calls"},
 {"property": "C06", "status": "partial", "theorems": ["C06_v2_shape", "C06_v3_shape_partial", "C06_no_frames", "C06_C26_array_documents"], "note": "Every level that has a document (C06_C26_array_documents gives its declared shape); with no frames no array document is written."},
 {"property": "C07", "status": "proved", "theorems": ["C07_C31_v2_chunks", "C07_C11_C31_v3_shards"], "note": "every byte of every stored chunk at every level, padding is 0"},
 {"property": "C08", "status": "proved", "theorems": ["C08_location_in_range", "C08_location_injective", "C08_frame_copied_exactly"], "note": "frame pixel -> (chunk, offset) addressing is in range, injective, and write_frame copies every byte to its location and touches nothing else; for sizes within Limits.fits"},
 {"property": "C09", "status": "proved", "theorems": ["C09_chunk_files", "C09_nothing_else", "C09_chunk_size"], "note": "chunk files are exactly those of the chunk grid in rows with frames, for every level and rank; on S3 no object changes but those; uncompressed chunks have the declared size. Assumes requests do not fail (C53 covers failures)."},
 {"property": "C10", "status": "proved", "theorems": ["C10_shard_coordinates", "C10_in_range", "C10_no_shared_slot", "C10_every_shard_used"], "note": "chunk -> (shard, slot) map over one append-chunk, all chunk grids and shard sizes within Limits"},
 {"property": "C11", "status": "proved", "theorems": ["C07_C11_C31_v3_shards", "C11_shard_index"], "note": "for shards that are finished; the unfinished ones are C13_refuted"},
 {"property": "C12", "status": "partial", "theorems": ["C12_only_the_last_chunk_of_a_shard_is_reachable", "C12_refuted", "C14_v3_full_rows_partial"], "note": "refuted: exact description of what is reachable"},
 {"property": "C13", "status": "partial", "theorems": ["C13_destroy_makes_readable_partial", "C13_refuted"], "note": "refuted when destroy finds frames in a shard at a chunk boundary"},
 {"property": "C14", "status": "partial", "theorems": ["C14_v2_s3_round_trip", "C14_v3_s3_round_trip_partial", "C14_v3_s3_refuted", "C14_v3_full_rows_partial", "C14_v3_s3_stale_refuted", "C14_v3_unfinished_shards_lost", "C14_v3_s3_shards"], "note": "v2 proved. v3: every frame of a full row of chunks reads back (append shard size 1), and all frames if the last row is full; refuted otherwise. C14_v3_unfinished_shards_lost: whatever the server refuses, if every append call succeeded, no shard whose row of shards is not full is ever uploaded, by an append call or by destroy. C14_v3_s3_shards: after a stream to which the server always answered, exactly the full shards of the grid of every level are in the bucket, with a well-formed index, and every other place is as it was before. C14_v3_s3_stale_refuted: with an older object under the key of the last, unfinished shard, the older object is still there after a session in which every call succeeded."},
 {"property": "C15", "status": "proved", "theorems": ["C15_sequential", "C15_C16_success_means_stored"], "note": "Any division of the object into writes at consecutive offsets; the finished object is the concatenation."},
 {"property": "C16", "status": "partial", "theorems": ["C15_C16_success_means_stored", "C16_failed_write_is_reported", "C16_refuted"], "note": "If all writes and the flush report success the object is stored whole, and a failure is always reported by the write or the flush; refuted: after a failed part the flush still completes the object with the parts before it and itself reports success."},
 {"property": "C17", "status": "partial", "theorems": ["C17_exact", "C17_small_objects_partial", "C17_refuted"], "note": "Exact count of connections held; small objects give all back; refuted: if the request that starts a multipart upload fails the connection is lost and later operations block for ever."},
 {"property": "C18", "status": "proved", "theorems": ["C18_exactly_once_in_order", "C18_stop"], "note": "Any number of workers, any client program, all interleavings (one client thread)."},
 {"property": "C19", "status": "proved", "theorems": ["C19_no_lost_wakeup", "C19_mutual_exclusion", "C19_no_deadlock", "C19_client_never_stuck", "C19_bounded", "C19_workers_terminate", "C19_pool_size"], "note": "Including spurious wake-ups."},
 {"property": "C20", "status": "proved", "theorems": ["C20_wait_means_written", "C20_batches_are_disciplined"], "note": "Any program made of batches of jobs that count down a latch."},
 {"property": "C21", "status": "proved", "theorems": ["C21_v2_flush_any_schedule", "C21_v3_flush_any_schedule", "C21_v2_s3_any_schedule", "C21_v3_s3_any_schedule", "C21_compress_any_schedule", "C21_make_files_any_schedule", "C21_make_dirs_any_schedule"], "note": "for every interleaving of the jobs of a flush (any number of workers, any pool history before it) the files, directories, objects, writer state and error equal those of the sequential model, as long as no storage request fails (which request fails would itself depend on the schedule); S3: the same up to upload ids, and after closing the sinks all objects are the same. A write to a sink is one atomic step of its job."},
 {"property": "C22", "status": "partial", "theorems": ["C22_v2_s3", "C22_error_is_permanent", "C22_v2_any_schedule_partial", "C22_v2_recorded_at_stop", "C22_v3_refuted", "C22_race_refuted", "C22_at_destroy_refuted"], "note": "Proved for version 2: on S3 a refused request makes this append fail or all later ones; on the pool, for all schedules, a failed job has its error recorded when it has ended. Refuted: version 3 jobs fail without a message and erase earlier errors; an append between count_down and the error handler is accepted; destroy ignores the error."},
 {"property": "C23", "status": "partial", "theorems": ["C23_files_never_report", "C23_refuted"], "note": "The property is false: FileSink never reports a failed write; witness: a full disk, both versions, all calls succeed."},
 {"property": "C24", "status": "partial", "theorems": ["C24_created_only_if_documented", "C24_rejected_without_effect", "C24_null_settings_rejected", "C24_documented_accepted", "C24_null_strings_refuted"], "note": "exact characterisation of accepted settings; refuted for null strings inside the settings, which are dereferenced"},
 {"property": "C25", "status": "partial", "theorems": ["C25_creation_terminates_partial", "C25_more_iterations", "C25_hangs"], "note": "Terminates (with the exact number of levels) when some non-channel dimension has extent > 0 and chunk > 1; when none has, the loop provably never ends for any iteration bound, so the property is false of the code for those accepted settings."},
 {"property": "C26", "status": "proved", "theorems": ["C26_C27_levels", "C26_extents", "C06_C26_array_documents"], "note": "Extents of every level, frame size of every level, and what the stored documents declare."},
 {"property": "C27", "status": "partial", "theorems": ["C26_C27_levels", "C27_C28_uint8_partial"], "note": "Frame counts floor(n/2^k) for all data types; the pairwise-mean statement for uint8 (false for wider types, see C28)."},
 {"property": "C28", "status": "partial", "theorems": ["C27_C28_uint8_partial", "C28_every_type_partial", "C28_large_images", "C28_refuted"], "note": "Proved for uint8 at every level. For every other type C28_every_type_partial says exactly which value each pixel of each level gets (integers and IEEE numbers), which is not the mean of the pixels: refuted for uint16, since the code reads the source image as bytes. int8 is excluded (casting a value above 127 is undefined). C28_large_images: images whose scaled version has 2^32 bytes or more run into undefined behaviour."},
 {"property": "C29", "status": "partial", "theorems": ["C29_refuted", "C29_always_mixed", "C27_C28_uint8_partial"], "note": "False of the code: consecutive frames are averaged whatever their channel; C29_always_mixed: they are never of the same position in an innermost middle dimension of length > 1."},
 {"property": "C30", "status": "partial", "theorems": ["C30_exact", "C30_one_level_partial", "C30_not_multiscale_partial", "C30_grows", "C30_refuted"], "note": "Exact count of lost buffers after n frames; bounded with at most one downscaled level, unbounded from two on."},
 {"property": "C31", "status": "proved", "theorems": ["C07_C31_v2_chunks", "C07_C11_C31_v3_shards"], "note": "compressor and decompressor are assumed inverse (fu_codec)"},
 {"property": "C32", "status": "partial", "theorems": ["C32_documents_partial", "C32_refuted"], "note": "Documents agree with settings of compressor None given as null, or Blosc with a codec; settings with compressor None are accepted and give an undecodable declaration."},
 {"property": "C33", "status": "proved", "theorems": ["C33_every_moment", "C33_finished_documents_partial"], "note": "Every moment of a session on a file system, every level, both versions: absent, empty or exactly one complete document; and the finished documents (also S3)."},
 {"property": "C34", "status": "proved", "theorems": ["C34_type_name", "C34_distinct"], "note": "The name in every array document and its width."},
 {"property": "C35", "status": "partial", "theorems": ["C35_datasets", "C35_factors_partial", "C35_refuted"], "note": "One dataset per stored level; factors are the extent ratios if the middle dimensions are channels; refuted for other middle dimensions."},
 {"property": "C36", "status": "partial", "theorems": ["C36_group_documents", "C36_custom_metadata", "C36_no_custom_metadata", "C36_refuted", "C36_blank_custom_metadata"], "note": "Every group, array and custom document is JSON and custom metadata is kept; refuted for 0/.zattrs (v2) and blank custom metadata, which are empty files."},
 {"property": "C37", "status": "partial", "theorems": ["C37_v2", "C37_v2_any_schedule", "C37_v3_full_shards_partial", "C37_v3_any_schedule_partial", "C37_v3_refuted", "C37_torn_write_refuted", "C37_s3_as_at_the_end", "C37_v2_s3"], "note": "File system; every moment after the old store is gone, every level, any loss of buffered whole writes per file, also every moment of a flush under every schedule of its jobs on the pool. v2: full. v3: every full shard; refuted for a last shard that is not full (destroy closes the document first) and for writes that arrive in part (in-place rewrite). S3: C37_s3_as_at_the_end (both versions) and C37_v2_s3 cover every moment at which the stream's own array document is there."},
 {"property": "C38", "status": "proved", "theorems": ["C38_distinct_paths", "C38_no_file_is_a_directory", "C38_every_write_has_one_item"], "note": "Static injectivity of the layout for all levels, append indices and coordinates and both versions, stronger prefix-freeness, and every file or object a fair session touches is the place of exactly one item of a level of the store."},
 {"property": "C39", "status": "proved", "theorems": ["C39_ownership", "C39_each_call", "C39_no_leak"], "note": "All sequences of create/destroy calls on all settings objects, including double create and destroy of never-created arrays."},
 {"property": "C40", "status": "proved", "theorems": ["C40_level", "C40_initial_level", "C40_status", "C40_emitted", "C40_messages"], "note": "All histories of set_log_level."},
 {"property": "C41", "status": "proved", "theorems": ["C41_trim", "C41_trim_idempotent", "C41_empty"], "note": ""},
 {"property": "C42", "status": "partial", "theorems": ["C42_contiguous_partial", "C42_refuted", "C42_reads_outside"], "note": "C-contiguous arrays are passed as their elements in C order; refuted otherwise: strides are ignored, memory outside the array can be read."},
 {"property": "C43", "status": "partial", "theorems": ["C43_offset_partial", "C43_failure", "C43_refuted", "C43_align", "C43_every_offset"], "note": "POSIX branch only. Proved for offsets below 2 GiB and at most 1024 buffers; C43_every_offset says what happens for all others: only the low 32 bits of the offset count; in their upper half and with more than 1024 buffers a failure is reported and nothing is written. Refuted at 4 GiB (cast to int): success is reported and the data are at offset 0."},
 {"property": "C44", "status": "partial", "theorems": ["C44_widths_partial", "C44_widths_refuted"], "note": "exact below the limits of Limits.v; accepted settings can exceed them and then 32-bit sums wrap"},
 {"property": "C45", "status": "partial", "theorems": ["C45_no_background_activity", "C45_destroy_returns", "C45_everything_finalized", "C45_destroy", "C45_failed_finalize_refuted"], "note": "Proved for every client program, number of workers and interleaving: when destroy returns, either finalize_stream had failed, or every accepted job has finished exactly once, none was dropped, all worker threads have exited and no further step is possible; a client that uses latches as the library does always gets there. When finalize_stream fails the property is false: C45_failed_finalize_refuted shows destroy returning while the worker threads wait for ever (the stream is leaked). C45_destroy: the same for the whole of ZarrStream_destroy of a stream, tied to the result of finalize_stream: true means all workers have exited, anything else that none has."},
 {"property": "C46", "status": "partial", "theorems": ["C46_make_dirs_partial", "C46_make_dirs_no_false_alarm", "C46_make_dirs_refuted", "C46_make_files_never_reports", "C46_make_files_refuted", "C46_make_files_sinks", "C21_make_dirs_any_schedule", "C21_make_files_any_schedule", "C46_make_dirs_records", "C46_flush_reports", "C46_finalize_reports"], "note": "refuted as stated: the jobs count the latch down before they clear the flag, and FileSink never reports a failure to open; what does hold is proved. C46_make_dirs_records: make_dirs_ never erases a recorded error, and once its workers are done a directory that could not be made has left an error From the sinks to the array: C46_flush_reports, C46_finalize_reports."},
 {"property": "C47", "status": "proved", "theorems": ["C47_repr_shows_at_most_five", "C47_short", "C47_settings_repr"], "note": "For the repr of S3Settings and of StreamSettings."},
 {"property": "C48", "status": "partial", "theorems": ["C48_partial", "C48_files_partial", "C48_directories_partial", "C48_objects", "C48_s3_no_files", "C48_fs_no_objects_partial", "C48_no_place", "C48_file_uri_refuted"], "note": "Proved for every environment, fault pattern, settings, history and outcome, at every instant. Missing: filesystem paths that start with \"file:\" - for \"file://\" paths the claim is false of the code (refuted with a witness)."},
 {"property": "C49", "status": "partial", "theorems": ["C49_settings_unchanged_partial", "C49_refuted"], "note": "Strings without NUL characters; a NUL cuts a string short."},
 {"property": "C50", "status": "partial", "theorems": ["C50_no_leak", "C50_failed_create", "C50_bounded", "C50_bound", "C50_failed_destroy_refuted"], "note": "All settings, data and failure patterns: opens = closes per path after a failed create or a destroy that deleted the stream; open files bounded by a number depending on the settings only (explicit for one resolution). Refuted: a destroy whose final flush fails leaves files open and the stream is leaked."},
 {"property": "C51", "status": "proved", "theorems": ["C51_null_pointers", "C51_append", "C51_codes", "C51_after_error", "C51_create", "C51_create_null"], "note": "std::bad_alloc is not modelled. Witness: C51_outcomes."},
 {"property": "C52", "status": "partial", "theorems": ["C52_files_partial", "C52_status_query_refuted", "C52_s3_v2_partial", "C52_s3_v3_refuted", "C52_later_success_refuted"], "note": "Proved for files (both formats, multiscale included, every pattern of failing requests) as long as the status of a path can be asked; without that the exception of fs::is_directory leaves a worker's task and the process is terminated inside append (C52_status_query_refuted). Proved, as far as undefined behaviour goes, for Zarr V2 on S3 (a call may hang when the connections are lost: C37). False for Zarr V3 on S3: after one refused request a later append uses a null sink (C52_s3_v3_refuted), and later successful appends overwrite frames whose append had succeeded (C52_later_success_refuted). Calls that are not whole frames: C02/C03. int8 multiscale is excluded (C28)."},
 {"property": "C53", "status": "partial", "theorems": ["C53_no_stray_files", "C53_no_empty_rows", "C53_no_empty_rows_refuted"], "note": "Proved for every environment, fault pattern and outcome with the bound that rows start at the latest after the last frame given; rows with frames only, if every append call succeeded. With a failed call there can be a row of shards without frames: refuted with a witness (S3, Zarr V3)."},
 {"property": "C54", "status": "partial", "theorems": ["C54_jobs_that_count_last", "C54_flush_and_compress_partial", "C54_make_files_refuted", "C54_make_dirs_refuted"], "note": "Proved for the jobs of a flush (both formats) and of the compression, with any other calls before and after. False for make_files_: its jobs use the flag all_successful after counting the latch down, so even without any failure a worker can write to a dead stack variable (C54_make_files_refuted); make_dirs_ does so when a directory cannot be made."},
 {"property": "C55", "status": "partial", "theorems": ["C55_no_failure_no_race", "C55_v2_flush_partial", "C55_v3_flush_partial", "C55_compress_partial", "C55_make_files", "C55_two_failures_refuted", "C55_append_refuted"], "note": "Proved as long as no job fails (any client, any number of workers; flushes to files without failing requests, compression that never fails, opening files whatever happens). False otherwise: two failing jobs assign the error at the same time, and a failing job assigns it while the next append reads it (the latch is counted down before the error is recorded)."},
 {"property": "C56", "status": "partial", "theorems": ["C56_uncompressed", "C56_compressed_partial", "C56_bound", "C56_object_buffers", "C56_refuted"], "note": "Proved without compression for every failure pattern, and with compression as long as no call fails (explicit bound for one resolution: a frame and the chunks of one row). With compression each failed append adds 16 bytes per chunk without limit: a failed flush leaves its compressed data in the buffers and the next one compresses it again (C56_refuted). Images waiting in a pyramid are C30; the growing list of uploaded part numbers and std::string contents are not counted."},
 {"property": "C57", "status": "partial", "theorems": ["C57_python_v2_partial", "C57_python_v3_partial"], "note": "From Python settings and arrays to what a reader of the store finds: version 2 on files and S3, version 3 on files with an append shard of one chunk. Arrays that are not C-contiguous are refuted (C42_refuted), larger append shards and v3 on S3 by C02/C14."},
 {"property": "C58", "status": "partial", "theorems": ["C58_alive_partial", "C58_survives_partial", "C58_alone_partial", "C58_filter", "C58_files_partial", "C58_objects_partial", "C58_session_partial", "C58_reader_partial", "C58_missing_parent_refuted"], "note": "Multi.v: any number of clients in one process, one thread, calls in any order, each client with its own (arbitrary) answers of the machine. Proved for paths without surrounding blanks and without \"file:\" whose parent directory exists at the start (C58_missing_parent_refuted shows that without this the creation of one store can let another be created). Not modelled: the calls of different streams at the same time from several threads, the log level shared by all streams, two streams to the same store."},
 {"property": "C59", "status": "proved", "theorems": ["C59_uploaded_once", "C59_whole_or_as_before", "C59_never_changes_again"], "note": "For every environment (all patterns of failing requests), all settings whose frame size is a positive number of bytes below 2^64, all calls that give fewer than 2^32 frames (bytes given plus one frame per call), all buckets and keys. 'Moment' is any prefix of the sequence of storage operations; the operations of one batch are in the model's order (C21 on the pool covers the other orders). An older object can outlive the stream that should have replaced it: C14_v3_s3_stale_refuted."},
 {"property": "C60", "status": "proved", "theorems": ["C60_document_last", "C60_complete_when_described", "C60_overwriting_refuted"], "note": "proved for all environments and calls; C60_overwriting_refuted shows what the property does not promise: when an existing store is overwritten, the older document stays until the end while the chunks it describes are replaced"},
 {"property": "C61", "status": "partial", "theorems": ["C61_blocked_partial", "C61_returns_partial", "C61_either_version_partial"], "note": "Zarr V2, everything else as stated. A refused create-multipart request loses one connection and closing that sink a second one, hence two per refused request. For Zarr V3 (fair uses) C61_either_version_partial gives at least one refused request. Missing: the bound for Zarr V3, where a sink whose upload failed may be closed again and again, losing a connection each time, and where undefined behaviour may come first (C52_s3_v3_refuted)."},
 {"property": "C62", "status": "partial", "theorems": ["C62_v2_reader", "C62_v3_reader_partial", "C62_listed_levels_refuted"], "note": "v2 proved (file system and S3, every level with frames): the reader of ReaderSpec.v, which takes everything but location and version from the stored documents, opens every level and gets the appended (or downsampled) elements. v3 proved for levels with append shard size 1 and, on S3, a full last row; otherwise refuted by C12_refuted and C14_v3_s3_refuted. Hypothesis: compression settings, if any, ask for Blosc (C32_refuted). C62_listed_levels_refuted: a level without frames is listed but has no document."},
 {"property": "C63", "status": "partial", "theorems": ["C63_v2_s3_acknowledged", "C63_v3_s3_answered_partial"], "note": "Zarr v2: full statement (the row of chunks in object storage, every pattern of refusals). Zarr v3 does not report refused requests (C22_v3_refuted), so for v3 the requests up to the acknowledged point are assumed to be answered; then the full shards stay whatever is refused later. Streams of fewer than 2^32 frames; file systems are C33/C37."},
 {"property": "C64", "status": "partial", "theorems": ["C64_accounted_for", "C64_exclusive", "C64_no_lost_wakeup", "C64_bounded", "C64_all_finish", "C64_same_as_alone", "C64_success_means_stored", "C64_nothing_lost", "C64_stored", "C64_all_lost", "C64_refuted"], "note": "Everything is proved for every schedule and every answer of the server except that all threads finish: that holds as long as a connection is left (C64_all_finish; in particular whenever nothing is refused, C64_nothing_lost, C64_stored). It is false when requests to start an upload are refused: each destroys a connection, and once all are gone the waiting threads wait for ever (C64_refuted: one connection, two threads; C64_all_lost). Each thread has sinks of its own. A sink that a worker writes and the client later closes is covered, as far as safety goes, by reading one thread of the machine as the life of one sink: the real schedules are then some of those of the machine (C64_accounted_for, C64_exclusive, C64_same_as_alone, C64_success_means_stored speak about all of them)."},
 {"property": "C65", "status": "partial", "theorems": ["C65_refuted", "C63_v2_s3_acknowledged"], "note": "Rows of chunks acknowledged by successful calls are right and stay (C63). The full statement is false: after one refused request for an array document the frame is stored at level 0 but not passed on to level 1, where all later frames are paired wrongly, while every later call and destroy report success (C65_refuted)."},
 {"property": "C66", "status": "proved", "theorems": ["C66_nothing_failed", "C66_something_failed", "C66_create", "C66_appends", "C66_python"], "note": "For every fair use (SessionSpec.v), on a machine where an arbitrary set of requests fails; also for Python programs. The converse is false: some failing requests are not reported (C22, C23, C46)."}
]}
