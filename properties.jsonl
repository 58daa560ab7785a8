{"id": "C01", "title": "Control frame round trip", "statement": "Encoding a control object of a valid type and decoding the produced bytes with the same flags (into any control object, whatever it held) succeeds and yields the same control type and exactly the content types visible for that type (all for READY/ACCEPT, the first for START, none for STOP/FINISH).", "quantifier": "every control type, every list of content type byte strings, both header flags, every prior state of the decoding object", "why_tests_cant": "the space of content type lists and byte strings is unbounded; lengths around the 256/512 limits interact", "anchors": [{"file": "fstrm/control.c", "symbols": ["fstrm_control_encode", "fstrm_control_decode", "fstrm_control_encoded_size"]}]}
{"id": "C02", "title": "Control frames on the wire follow the published format", "statement": "The bytes produced by a successful encode are exactly: (with header) a zero 32-bit escape and the big-endian payload length, then the big-endian type, then one (1, length, bytes) triple per visible content type, in the order added; nothing else.", "quantifier": "every control object and both header flags for which encode succeeds", "why_tests_cant": "tests compare a handful of literals; interoperability needs every frame to be right", "anchors": [{"file": "fstrm/control.c", "symbols": ["fstrm_control_encode"]}, {"file": "fstrm/fstrm-private.h", "symbols": ["fs_store_be32", "fs_store_bytes"]}]}
{"id": "C03", "title": "Encoded size is exact and encode never overruns the caller's buffer", "statement": "encoded_size returns precisely the number of bytes encode writes; encode succeeds iff encoded_size does and the announced capacity is at least that size; it stores only into the first encoded_size bytes, leaves the rest and (on failure) the whole buffer and *len untouched, and never stores outside the buffer.", "quantifier": "every control object, flag word, buffer content and announced capacity not larger than the real one", "why_tests_cant": "memory safety for every size combination is not reachable by sampling", "anchors": [{"file": "fstrm/control.c", "symbols": ["fstrm_control_encoded_size", "fstrm_control_encode"]}]}
{"id": "C04", "title": "Decode accepts exactly the well-formed control frames", "statement": "decode succeeds on a byte string iff it is a well-formed control frame (right header when requested, known type, only content type fields of at most 256 bytes, payload at most 512 bytes, at most one content type in START and none in STOP/FINISH, no trailing bytes), and the resulting object holds exactly what the frame says.", "quantifier": "every byte string and both header flags", "why_tests_cant": "all byte strings up to 520 bytes cannot be enumerated", "anchors": [{"file": "fstrm/control.c", "symbols": ["fstrm_control_decode"]}]}
{"id": "C05", "title": "Decode is memory safe and terminates on arbitrary input", "statement": "decode never reads outside the first len_control_frame bytes of the caller's buffer, performs no undefined behaviour, terminates, and its result does not depend on bytes after the announced length nor on the previous content of the object.", "quantifier": "every buffer, every announced length not larger than the buffer, every flag word, every prior object state", "why_tests_cant": "hostile inputs are unbounded; fuzzing samples them", "anchors": [{"file": "fstrm/control.c", "symbols": ["fstrm_control_decode"]}, {"file": "fstrm/fstrm-private.h", "symbols": ["fs_load_be32", "fs_load_bytes"]}]}
{"id": "C06", "title": "Decoded frames are canonical", "statement": "Re-encoding what decode produced, with the same flags, reproduces the original bytes; hence no two different byte strings decode to the same object. (Refuted for frames with a header whose payload is 505..512 bytes: encode refuses what decode accepts.)", "quantifier": "every byte string accepted by decode", "why_tests_cant": "requires a statement about all accepted byte strings", "anchors": [{"file": "fstrm/control.c", "symbols": ["fstrm_control_decode", "fstrm_control_encode", "fstrm_control_encoded_size"]}]}
{"id": "C07", "title": "Which control objects can be encoded", "statement": "encode/encoded_size succeed iff every visible content type is at most 256 bytes and the encoded frame fits 512 bytes, where with a header the 8 header bytes count against the limit (so a documented-legal payload of 505..512 bytes cannot be sent), and an object whose type was never set still encodes, to bytes every decoder rejects.", "quantifier": "every control object and both flags", "why_tests_cant": "boundary behaviour over sums of arbitrarily many lengths", "anchors": [{"file": "fstrm/control.c", "symbols": ["fstrm_control_encoded_size", "fstrm_control_encode"]}, {"file": "fstrm/control.h", "symbols": ["FSTRM_CONTROL_FRAME_LENGTH_MAX"]}]}
{"id": "C08", "title": "Content type matching", "statement": "match_field_content_type succeeds iff the frame is not STOP/FINISH and either lists no content type, or the given content type equals (same length, same bytes) one of the content types visible for its type; a NULL content type matches only frames that list none.", "quantifier": "every control object and every candidate byte string or NULL", "why_tests_cant": "byte-exact comparison over all strings, embedded NULs and prefixes", "anchors": [{"file": "fstrm/control.c", "symbols": ["fstrm_control_match_field_content_type"]}]}
{"id": "C09", "title": "Content type accessors agree on decoded frames", "statement": "For an object produced by decode, get_num reports n and get_field(i) succeeds exactly for i < n returning the i-th content type of the frame. (Refuted for hand-built START/STOP/FINISH objects: get_field exposes fields that get_num hides.)", "quantifier": "every decoded control object and index; every hand-built object for the refutation", "why_tests_cant": "needs all objects and indices", "anchors": [{"file": "fstrm/control.c", "symbols": ["fstrm_control_get_num_field_content_type", "fstrm_control_get_field_content_type", "fstrm_control_add_field_content_type", "fstrm_control_set_type", "fstrm_control_reset"]}]}
{"id": "C10", "title": "Transport methods are called in a legal order", "statement": "Whatever the application calls on a reader or writer and whatever the transport answers, the transport's read and write methods are only invoked while it is open, close is invoked only while it is open, a failed read or write is followed immediately by exactly one close, and destroy is the last call.", "quantifier": "every sequence of public API calls, every sequence of transport answers, every stopping point", "why_tests_cant": "tests drive a few call orders with well-behaved transports", "anchors": [{"file": "fstrm/rdwr.c", "symbols": ["fstrm_rdwr_open", "fstrm_rdwr_close", "fstrm_rdwr_read", "fstrm_rdwr_write", "fstrm_rdwr_destroy"]}, {"file": "fstrm/reader.c", "symbols": ["fstrm_reader_open", "fstrm_reader_read", "fstrm_reader_close", "fstrm_reader_destroy"]}, {"file": "fstrm/writer.c", "symbols": ["fstrm_writer_open", "fstrm_writer_writev", "fstrm_writer_close", "fstrm_writer_destroy"]}]}
{"id": "C11", "title": "Transports are closed by the time the object is destroyed", "statement": "Every transport opened by a reader or writer has been closed when destroy returns. (Refuted: a failed handshake, a rejected START or an oversized frame leaves the transport open and destroy does not close it. Proved for writers that reached the opened state and readers that ended normally.)", "quantifier": "every API call history and transport behaviour", "why_tests_cant": "leaks occur only on rare error paths", "anchors": [{"file": "fstrm/reader.c", "symbols": ["fstrm_reader_destroy", "fstrm__reader_next_data", "fstrm_reader_open"]}, {"file": "fstrm/writer.c", "symbols": ["fstrm_writer_destroy", "fstrm_writer_open"]}]}
{"id": "C12", "title": "Uni-directional writer output format", "statement": "For every history of open/write/writev/close calls on a file-like writer whose transport accepts everything, each opened stream consists of one START frame carrying the first configured content type (or none), the data frames in call order each as big-endian length plus payload, and, after close, one STOP frame.", "quantifier": "every list of content types, every sequence of API calls, every payload of 1..2^32-1 bytes", "why_tests_cant": "histories and payloads are unbounded", "anchors": [{"file": "fstrm/writer.c", "symbols": ["fstrm_writer_open", "fstrm_writer_write", "fstrm_writer_writev", "fstrm_writer_close"]}]}
{"id": "C13", "title": "Batching does not change the stream", "statement": "writev of any number of frames puts the same bytes on the transport, in the same order, as writing the frames one by one, including beyond 128 frames where the call is split.", "quantifier": "every list of payloads of any length, any way of splitting it into writev calls", "why_tests_cant": "batch sizes around the split and their combinations are unbounded", "anchors": [{"file": "fstrm/writer.c", "symbols": ["fstrm_writer_writev", "fstrm__writer_write_iov", "fstrm__writer_write_iov_stupid"]}]}
{"id": "C14", "title": "Crash and error prefix safety of the writer", "statement": "At every point of every history, whatever the transport answers, the bytes successfully handed to the transport since it was last opened form a prefix of a valid stream (handshake frames, START, whole data frames from the application in call order, STOP); nothing is emitted before START, and nothing after STOP until it is opened again.", "quantifier": "every API call history, every transport answer sequence, every crash point", "why_tests_cant": "crash points and error positions multiply with histories", "anchors": [{"file": "fstrm/writer.c", "symbols": ["fstrm_writer_open", "fstrm_writer_writev", "fstrm_writer_close"]}, {"file": "fstrm/rdwr.c", "symbols": ["fstrm_rdwr_write"]}]}
{"id": "C15", "title": "Writer results tell the truth", "statement": "If write/writev reports success every frame of the call was handed to a write method that reported success; if any transport write fails, the call reports failure, and after a failed close or in the closed state no further bytes are emitted until reopened.", "quantifier": "every history and transport behaviour", "why_tests_cant": "error injection at every position", "anchors": [{"file": "fstrm/writer.c", "symbols": ["fstrm_writer_writev", "fstrm_writer_write", "fstrm_writer_close"]}]}
{"id": "C16", "title": "Empty and oversized payloads", "statement": "Every payload a writer accepts is read back as that payload. (Refuted: an empty payload is encoded as the control escape and a payload of 2^32 bytes or more has its length truncated; both desynchronise the stream. Proved for 1..2^32-1 bytes.)", "quantifier": "every payload length", "why_tests_cant": "the failing lengths are 0 and beyond 4 GiB", "anchors": [{"file": "fstrm/writer.c", "symbols": ["fstrm__writer_write_iov"]}]}
{"id": "C17", "title": "File round trip", "statement": "Frames written through a file writer and read back through a file reader accepting the content type come back byte for byte, in order, none missing or added, followed by end-of-stream; the START frame reports the writer's content type.", "quantifier": "every list of payloads of 1..max_frame_size bytes, every content type of at most 256 bytes, every batching of the writes", "why_tests_cant": "unbounded lists and binary contents", "anchors": [{"file": "fstrm/file.c", "symbols": ["fstrm__file_op_read", "fstrm__file_op_write"]}, {"file": "fstrm/reader.c", "symbols": ["fstrm_reader_read"]}, {"file": "fstrm/writer.c", "symbols": ["fstrm_writer_writev"]}]}
{"id": "C18", "title": "Reader meaning on every input", "statement": "For every byte string used as the data section of a stream the reader returns exactly the payloads of the data frames before the first stopping point, in order, skipping non-STOP control frames, and what it reports at the stopping point is determined by its kind (STOP frame, end of input, malformed control frame, oversized frame).", "quantifier": "every byte string, every maximum frame size", "why_tests_cant": "a total specification over all byte strings", "anchors": [{"file": "fstrm/reader.c", "symbols": ["fstrm__reader_next_data", "fstrm_reader_read"]}, {"file": "fstrm/rdwr.c", "symbols": ["fstrm__rdwr_read_control_frame"]}]}
{"id": "C19", "title": "Truncation (crash of the producer) never yields a wrong frame", "statement": "If a valid stream is cut at any byte, the reader returns a prefix of the original frames, each intact, and then stops returning data. (Refuted companion: the cut is reported exactly like a proper end of stream.)", "quantifier": "every stream and every cut position", "why_tests_cant": "every crash point", "anchors": [{"file": "fstrm/reader.c", "symbols": ["fstrm_reader_read"]}, {"file": "fstrm/file.c", "symbols": ["fstrm__file_op_read"]}]}
{"id": "C20", "title": "Maximum frame size is enforced and reported", "statement": "A data frame longer than the configured maximum is never buffered and the read call reports failure. (Refuted: the call reports success without setting its outputs. Proved: it is never buffered and the reader never returns data again.)", "quantifier": "every maximum frame size, every announced length", "why_tests_cant": "needs the whole length range", "anchors": [{"file": "fstrm/reader.c", "symbols": ["fstrm__reader_next_data", "fstrm_reader_options_set_max_frame_size"]}]}
{"id": "C21", "title": "Reader memory safety and termination on hostile input", "statement": "On any bytes from the transport, open/read/get_control/close never store or load outside their buffers, terminate once the input is exhausted, and never run into undefined behaviour other than the zero-length array used for a control frame of announced length 0.", "quantifier": "every byte sequence, every transport answer, every API call history", "why_tests_cant": "hostile inputs are unbounded", "anchors": [{"file": "fstrm/reader.c", "symbols": ["fstrm__reader_next_data"]}, {"file": "fstrm/rdwr.c", "symbols": ["fstrm__rdwr_read_control_frame"]}, {"file": "libmy/vector.h", "symbols": ["reserve"]}]}
{"id": "C22", "title": "Reader life cycle", "statement": "A reader returns data only between a successful open and the first non-success result of read; after that every read returns a non-success result until the application reopens it; after close, read returns stop.", "quantifier": "every API call history and transport behaviour", "why_tests_cant": "all histories", "anchors": [{"file": "fstrm/reader.c", "symbols": ["fstrm_reader_open", "fstrm_reader_read", "fstrm_reader_close"]}]}
{"id": "C23", "title": "Reader accepts only wanted content types", "statement": "A reader with a non-empty content type set opens only if the START frame carries no content type or one that is byte-for-byte in the set; with an empty set every START frame is accepted.", "quantifier": "every content type set, every START frame", "why_tests_cant": "byte-exact over all strings", "anchors": [{"file": "fstrm/reader.c", "symbols": ["fstrm__reader_open_unidirectional", "fstrm__reader_open_bidirectional"]}]}
{"id": "C24", "title": "get_control returns the control frame it reports", "statement": "When reader or writer get_control reports success it hands out the frame of the requested type that was exchanged. (Refuted: it reports success with a NULL frame for frames never exchanged. Proved: a non-NULL frame has the requested type and is the one on the wire.)", "quantifier": "every API history, every type", "why_tests_cant": "state-dependent over all histories", "anchors": [{"file": "fstrm/reader.c", "symbols": ["fstrm_reader_get_control"]}, {"file": "fstrm/writer.c", "symbols": ["fstrm_writer_get_control"]}]}
{"id": "C25", "title": "Handshake outcome as a function of the two content type sets", "statement": "When a bi-directional writer with content types W meets a bi-directional reader with content types R over a reliable channel, then under every interleaving exactly one of three outcomes occurs (provided the frames fit): both opens succeed and agree on the START content type, iff W is empty, R is empty, or the first element of W is in R; the writer succeeds and the reader fails, iff W and R are non-empty and disjoint; otherwise the writer fails without telling the reader, which keeps waiting.", "quantifier": "every pair of content type lists, every interleaving of the two parties", "why_tests_cant": "cross product of lists and schedules", "anchors": [{"file": "fstrm/writer.c", "symbols": ["fstrm__writer_open_bidirectional"]}, {"file": "fstrm/reader.c", "symbols": ["fstrm__reader_open_bidirectional"]}]}
{"id": "C26", "title": "Content type negotiation finds a common type", "statement": "If the two sides share a content type the handshake succeeds, and if they share none both sides report failure. (Refuted in both directions: a common type that is not the writer's first is not found; with disjoint sets the writer reports success.)", "quantifier": "every pair of content type lists", "why_tests_cant": "depends on list order and overlap", "anchors": [{"file": "fstrm/writer.c", "symbols": ["fstrm__writer_open_bidirectional"]}, {"file": "fstrm/reader.c", "symbols": ["fstrm__reader_open_bidirectional"]}]}
{"id": "C27", "title": "Bi-directional end-to-end delivery", "statement": "After a successful handshake every frame written is delivered to the reader in order exactly once, then STOP/FINISH are exchanged, both closes succeed and neither side deadlocks, under every interleaving.", "quantifier": "every frame list, every interleaving of the two parties", "why_tests_cant": "schedules times frame lists", "anchors": [{"file": "fstrm/writer.c", "symbols": ["fstrm_writer_close"]}, {"file": "fstrm/reader.c", "symbols": ["fstrm_reader_close", "fstrm_reader_read"]}]}
{"id": "C28", "title": "Socket reads assemble exact byte counts", "statement": "read_bytes returns success iff the peer delivers the requested number of bytes before end-of-file or error, with exactly those bytes in order, however the kernel splits the data and however often it is interrupted.", "quantifier": "every chunking of the byte stream, every pattern of EINTR, every count", "why_tests_cant": "kernel chunking is nondeterministic", "anchors": [{"file": "libmy/read_bytes.h", "symbols": ["read_bytes"]}, {"file": "fstrm/unix_writer.c", "symbols": ["fstrm__unix_writer_op_read"]}, {"file": "fstrm/tcp_writer.c", "symbols": ["fstrm__tcp_writer_op_read"]}]}
{"id": "C29", "title": "Socket writes put each byte on the wire once", "statement": "A successful socket write has sent exactly the concatenation of the buffers, whatever partial sends the kernel makes, without touching memory outside the array. (Refuted: after a partial send already sent buffers are sent again, and completing the send reads past the end of the buffer array. Proved: exact when the first effective send takes everything, after any number of EINTR.)", "quantifier": "every buffer array, every kernel response sequence", "why_tests_cant": "partial sends are rare on test machines and nondeterministic", "anchors": [{"file": "fstrm/unix_writer.c", "symbols": ["fstrm__unix_writer_op_write"]}, {"file": "fstrm/tcp_writer.c", "symbols": ["fstrm__tcp_writer_op_write"]}]}
{"id": "C30", "title": "SPSC queue is FIFO without loss, duplication or tearing", "statement": "With one producer and one consumer, under every interleaving of their memory accesses and every delay of x86-TSO store buffers, the elements removed are, in order and byte for byte, a prefix of the elements whose insert reported success (or is about to).", "quantifier": "every queue size, element size and element list, every interleaving and store buffer schedule", "why_tests_cant": "races need specific schedules", "anchors": [{"file": "libmy/my_queue_mb.c", "symbols": ["my_queue_mb_insert", "my_queue_mb_remove"]}, {"file": "libmy/my_memory_barrier.h", "symbols": ["smp_wmb", "smp_mb"]}]}
{"id": "C31", "title": "SPSC queue capacity and refusals", "statement": "The queue never holds more than size-1 elements, insert refuses only if it was full when the consumer's position was read, remove refuses only if every published element had been removed, and the space/count reported are the exact values at that point.", "quantifier": "every schedule", "why_tests_cant": "schedule dependent", "anchors": [{"file": "libmy/my_queue_mb.c", "symbols": ["q_space", "q_count", "my_queue_mb_insert", "my_queue_mb_remove"]}]}
{"id": "C32", "title": "SPSC queue needs its single-producer restriction", "statement": "Submitting from two threads to a single-producer queue can lose an element although both submissions report success, so the documented restriction is necessary.", "quantifier": "existence of a schedule", "why_tests_cant": "needs a particular race", "anchors": [{"file": "libmy/my_queue_mb.c", "symbols": ["my_queue_mb_insert"]}, {"file": "fstrm/iothr.h", "symbols": ["FSTRM_IOTHR_QUEUE_MODEL_SPSC"]}]}
{"id": "C33", "title": "Mutex queue is linearizable for any number of threads", "statement": "With any number of producer and consumer threads, every execution of the locked queue is equivalent to executing the completed calls one at a time, in an order consistent with each thread's program order and with real time, on a FIFO of capacity size-1.", "quantifier": "any number of threads, any operation lists, any interleaving", "why_tests_cant": "schedule space is infinite", "anchors": [{"file": "libmy/my_queue_mutex.c", "symbols": ["my_queue_mutex_insert", "my_queue_mutex_remove", "q_lock", "q_unlock"]}]}
{"id": "C34", "title": "Queue creation validates its size", "statement": "A queue is created iff the requested element count is at least 2 and a power of two.", "quantifier": "every 32-bit element count", "why_tests_cant": "2^32 inputs", "anchors": [{"file": "libmy/my_queue_mb.c", "symbols": ["my_queue_mb_init"]}, {"file": "libmy/my_queue_mutex.c", "symbols": ["my_queue_mutex_init"]}]}
{"id": "C35", "title": "iothr option setters", "statement": "Each setter succeeds exactly on its documented range, stores the value, and otherwise reports failure and leaves the options unchanged. (Refuted for input_queue_size: even values that are not powers of two are accepted although documented as required, and creating the iothr then misbehaves.)", "quantifier": "every value of every option, every order of setter calls", "why_tests_cant": "all 32/64-bit values", "anchors": [{"file": "fstrm/iothr.c", "symbols": ["fstrm_iothr_options_set_buffer_hint", "fstrm_iothr_options_set_input_queue_size", "fstrm_iothr_options_set_output_queue_size", "fstrm_iothr_init", "fstrm_iothr_destroy"]}]}
{"id": "C36", "title": "Input queue hand-out", "statement": "fstrm_iothr_get_input_queue hands out each queue at most once, in order, and NULL after the configured number; get_input_queue_idx succeeds exactly below it.", "quantifier": "every number of queues, every interleaving of callers", "why_tests_cant": "concurrent callers", "anchors": [{"file": "fstrm/iothr.c", "symbols": ["fstrm_iothr_get_input_queue", "fstrm_iothr_get_input_queue_idx"]}]}
{"id": "C37", "title": "Submit result codes and ownership", "statement": "submit reports invalid exactly for NULL data or a length outside 1..2^32-2, failure once shutdown began, again exactly when the queue is full, success otherwise; only on success does the library take ownership, and only then can the I/O thread be signalled.", "quantifier": "every argument, queue state and shutdown state", "why_tests_cant": "state and boundary dependent", "anchors": [{"file": "fstrm/iothr.c", "symbols": ["fstrm_iothr_submit"]}]}
{"id": "C38", "title": "Every accepted buffer is released exactly once", "statement": "Over the life of an iothr each accepted buffer's free callback is invoked exactly once, no callback is invoked for a refused buffer, and no buffer is passed to the writer after its callback ran.", "quantifier": "every submission history, every interleaving, every pattern of open/write failures, every shutdown moment", "why_tests_cant": "schedules, failures and shutdown points multiply", "anchors": [{"file": "fstrm/iothr.c", "symbols": ["fstrm__iothr_thr", "fstrm__iothr_process_queue_entry", "fstrm__iothr_flush_output", "fstrm__iothr_free_queues", "fstrm_iothr_destroy"]}]}
{"id": "C39", "title": "Order and no duplication of submitted data", "statement": "The data frames handed to the writer form, per input queue, a subsequence of the accepted submissions in submission order; no submission is written twice.", "quantifier": "every submission history, interleaving and failure pattern", "why_tests_cant": "schedules and failures", "anchors": [{"file": "fstrm/iothr.c", "symbols": ["fstrm__iothr_process_queues", "fstrm__iothr_flush_output"]}]}
{"id": "C40", "title": "Lossless delivery while the writer is healthy", "statement": "If the stream is open before the queues are first looked at and no transport call fails, then after destroy the stream contains START, every submission accepted before shutdown, in per-queue order, and STOP.", "quantifier": "every submission history and interleaving", "why_tests_cant": "schedules", "anchors": [{"file": "fstrm/iothr.c", "symbols": ["fstrm__iothr_thr", "fstrm_iothr_destroy"]}]}
{"id": "C41", "title": "Output batching bounds", "statement": "The output batch never exceeds output_queue_size entries, never overruns its arrays, and holds more than buffer_hint bytes only when it is a single frame. (The byte part is refuted for frames within 4 bytes of 4 GiB, whose 32-bit byte count wraps.)", "quantifier": "every history and option setting", "why_tests_cant": "histories and extreme lengths", "anchors": [{"file": "fstrm/iothr.c", "symbols": ["fstrm__iothr_maybe_flush_output", "fstrm__iothr_process_queue_entry"]}]}
{"id": "C42", "title": "Reopen pacing", "statement": "Two attempts by an iothr to open its writer are at least reopen_interval seconds apart on the monotonic clock, and while closed queued data is released, not accumulated.", "quantifier": "every history and clock behaviour", "why_tests_cant": "timing dependent", "anchors": [{"file": "fstrm/iothr.c", "symbols": ["fstrm__iothr_maybe_open", "fstrm__iothr_open"]}]}
{"id": "C43", "title": "Shutdown terminates and drains", "statement": "Once shutdown is requested and submissions cease, the I/O thread stops after finitely many steps having emptied every input queue and the output batch, and closes the stream.", "quantifier": "every queue content at the moment of shutdown", "why_tests_cant": "all shutdown points", "anchors": [{"file": "fstrm/iothr.c", "symbols": ["fstrm__iothr_thr", "fstrm_iothr_destroy"]}]}
{"id": "C44", "title": "Flush timeout bounds the age of unflushed data", "statement": "Data taken from the input queue is flushed within flush_timeout seconds. (Refuted: wake-ups that are not time-outs restart the wait without flushing, so data may wait arbitrarily many wake-ups below the batch limits. Proved: every timed-out wait is followed by a flush of everything batched.)", "quantifier": "every sequence of wake-ups", "why_tests_cant": "timing dependent", "anchors": [{"file": "fstrm/iothr.c", "symbols": ["fstrm__iothr_thr"]}, {"file": "fstrm/iothr.h", "symbols": ["fstrm_iothr_options_set_flush_timeout"]}]}
{"id": "C45", "title": "Capture output is independent of network segmentation", "statement": "What fstrm_capture writes and answers for a connection depends only on the bytes received, not on how they are split into reads, on other connections, on the clock or on rotations (for streams in which no frame announces a length of 2^32-4 or more; see the limits below).", "quantifier": "every byte stream and every split of it", "why_tests_cant": "all segmentations", "anchors": [{"file": "src/fstrm_capture.c", "symbols": ["cb_read", "can_read_full_frame", "load_control_frame"]}]}
{"id": "C46", "title": "Capture output files are valid streams of whole frames", "statement": "Each output file that was closed is START, whole data frames copied verbatim in arrival order, STOP, for any number of interleaved connections and rotations; rotation never splits, duplicates or drops a frame. (Refuted without a bound on announced lengths: lengths of 2^32-4 and above wrap the frame size to 0..3, hanging the server or writing fragments.)", "quantifier": "every interleaving of connections, chunks, rotations", "why_tests_cant": "interleavings and hostile lengths", "anchors": [{"file": "src/fstrm_capture.c", "symbols": ["process_data_frame", "open_write_start", "close_write_stop", "rotate_output", "can_read_full_frame"]}]}
{"id": "C47", "title": "Capture only stores data from negotiated connections", "statement": "A data frame reaches the output only if its connection completed READY/ACCEPT/START with the configured content type. (Refuted: frames are accepted in any connection state. Proved: the handshake state only advances in order and control frames out of order close the connection.)", "quantifier": "every peer behaviour", "why_tests_cant": "hostile peers", "anchors": [{"file": "src/fstrm_capture.c", "symbols": ["cb_read", "process_control_frame", "process_control_frame_ready", "process_control_frame_start"]}]}
{"id": "C48", "title": "Capture connection limit", "statement": "With a configured maximum, the number of simultaneously served connections never exceeds it and the listener is enabled exactly when below it; without one the listener is never disabled.", "quantifier": "every sequence of accepts and closes", "why_tests_cant": "all histories", "anchors": [{"file": "src/fstrm_capture.c", "symbols": ["cb_accept_conn", "cb_close_conn"]}]}
{"id": "C49", "title": "Capture buffers at most the configured amount and skips oversized frames exactly", "statement": "A connection never buffers more than configured; a frame larger than the configured buffer is discarded completely, exactly its bytes are skipped, and the following frame is processed normally. (Refuted in two ways: announced lengths of 2^32-4 and above wrap; and a read that fills the whole buffer with the header of an oversized frame leaves the connection stalled for ever. Proved: exact skipping for other lengths, the buffer bound, and no stall if reads stay at least 8 bytes below the buffer size.)", "quantifier": "every stream and segmentation, every buffer size", "why_tests_cant": "boundary over all lengths and splits", "anchors": [{"file": "src/fstrm_capture.c", "symbols": ["can_read_full_frame", "cb_read"]}]}
{"id": "C50", "title": "fstrm_dump and fstrm_replay copy streams faithfully", "statement": "Dumping a stream file whose data frames are within the default limit to another file reproduces the same content type and the same data frames in order; replaying files writes the concatenation of their data frames in order.", "quantifier": "every stream file, every list of files", "why_tests_cant": "unbounded content", "anchors": [{"file": "src/fstrm_dump.c", "symbols": ["main"]}, {"file": "src/fstrm_replay.c", "symbols": ["process_file", "main"]}]}
{"id": "C51", "title": "fstrm_dump reports damaged input", "statement": "fstrm_dump exits successfully only if the input ended with a STOP frame. (Refuted: an input truncated anywhere after START is dumped, terminated with STOP and reported as success.)", "quantifier": "every input file", "why_tests_cant": "every truncation point", "anchors": [{"file": "src/fstrm_dump.c", "symbols": ["main", "print_stop_frame"]}]}
{"id": "C52", "title": "Printed frames are unambiguous", "statement": "Different payloads print differently. (Refuted: a backslash is printed unescaped, so distinct payloads print alike. Proved: unambiguous for payloads without backslash.)", "quantifier": "every pair of byte strings", "why_tests_cant": "all pairs of strings", "anchors": [{"file": "libmy/print_string.h", "symbols": ["print_string"]}, {"file": "src/fstrm_dump.c", "symbols": ["print_data_frame"]}]}
{"id": "C53", "title": "Growable buffers keep their contents and never overrun", "statement": "Appending to, reserving in and clipping the internal vectors preserves previously stored elements, never stores outside the allocation, and growth terminates for every size below 2^63.", "quantifier": "every sequence of vector operations and sizes", "why_tests_cant": "operation sequences are unbounded", "anchors": [{"file": "libmy/vector.h", "symbols": ["VECTOR_GENERATE"]}, {"file": "libmy/ubuf.h", "symbols": ["ubuf_append"]}]}
{"id": "C54", "title": "Time arithmetic is exact and normalised", "statement": "Adding and subtracting time values yields the exact sum/difference with nanoseconds in 0..999999999 for normalised operands with a result that is not negative.", "quantifier": "every pair of normalised time values", "why_tests_cant": "carry/borrow over all values", "anchors": [{"file": "libmy/my_time.h", "symbols": ["my_timespec_add", "my_timespec_sub"]}]}
{"id": "C55", "title": "Socket address and port option parsing", "statement": "A TCP writer is created only if the address parses and the port text is a number of 0..65535 with no trailing characters (refuted: the empty text is accepted as port 0, and a minus sign wraps modulo 2^64; the exact set of accepted texts is proved); a Unix socket path is accepted iff it fits sun_path including its terminator.", "quantifier": "every text", "why_tests_cant": "all strings", "anchors": [{"file": "fstrm/tcp_writer.c", "symbols": ["fstrm__tcp_writer_fill_socket_port", "fstrm_tcp_writer_init"]}, {"file": "fstrm/unix_writer.c", "symbols": ["fstrm_unix_writer_init"]}]}
{"id": "C56", "title": "Socket writers account for their descriptor", "statement": "Over any history of open and close calls, every descriptor closed by a socket writer is one it holds, it holds exactly one while connected and none otherwise. (Refuted: destroying a connected transport releases its descriptor.)", "quantifier": "every sequence of open/close calls and kernel answers", "why_tests_cant": "leaks and double closes show only on particular failure sequences", "anchors": [{"file": "fstrm/unix_writer.c", "symbols": ["fstrm__unix_writer_op_open", "fstrm__unix_writer_op_close", "fstrm__unix_writer_op_destroy"]}, {"file": "fstrm/tcp_writer.c", "symbols": ["fstrm__tcp_writer_op_open", "fstrm__tcp_writer_op_close"]}]}
{"id": "C57", "title": "Printing frames is harmless", "statement": "Printing any payload writes only printable ASCII, exactly one line per frame in a dump, and at most four characters per byte.", "quantifier": "every payload, every list of frames", "why_tests_cant": "all byte strings", "anchors": [{"file": "libmy/print_string.h", "symbols": ["print_string"]}, {"file": "src/fstrm_dump.c", "symbols": ["print_data_frame"]}]}
{"id": "C58", "title": "Lock-free insert is wait-free", "statement": "Inserting into the lock-free queue never waits for anybody: each insert is answered (success or full) after a fixed number of the producer's own steps, whatever the consumer does or however long stores are delayed.", "quantifier": "every queue size, element size, element list and schedule", "why_tests_cant": "waiting shows up only under particular interleavings", "anchors": [{"file": "libmy/my_queue_mb.c", "symbols": ["my_queue_mb_insert"]}]}
{"id": "C59", "title": "Rotating the capture output keeps what was captured", "statement": "After any number of rotations, every output file that was opened is still on disk with everything written to it. (Refuted: SIGUSR1 without a calendar option, or twice in the same second, reopens and truncates the same name. Proved: files are kept whenever names differ, and names differ under --split with a clock that does not go back and a format that tells its times apart.)", "quantifier": "every sequence of rotations by signal and by time", "why_tests_cant": "all histories and clocks", "anchors": [{"file": "src/fstrm_capture.c", "symbols": ["rotate_output", "maybe_rotate_output", "open_write_file", "update_output_fname", "do_sigusr1"]}]}
{"id": "C60", "title": "The capture server survives its peers", "statement": "No bytes sent by any peer make fstrm_capture crash, exit or stop serving, as long as it can write its output. (Refuted: a frame announcing length 2^32-4 makes it loop for ever. Proved: no undefined behaviour of the modelled kinds for any bytes, and every event is handled to completion if no frame announces 2^32-4 or more.)", "quantifier": "every peer behaviour, every interleaving of connections", "why_tests_cant": "hostile input over all histories", "anchors": [{"file": "src/fstrm_capture.c", "symbols": ["cb_read", "can_read_full_frame", "process_data_frame", "load_control_frame", "process_control_frame"]}]}
{"id": "C61", "title": "A complete writer session is captured completely", "statement": "A peer that sends READY offering the configured content type (or none), START with that type (or none), data frames fitting the buffer, and STOP, gets ACCEPT and FINISH, and exactly its data frames are stored, in order.", "quantifier": "every list of payloads, every segmentation and interleaving", "why_tests_cant": "unbounded sessions and interleavings", "anchors": [{"file": "src/fstrm_capture.c", "symbols": ["cb_read", "process_control_frame_ready", "process_control_frame_start", "process_control_frame_stop", "process_data_frame"]}]}
{"id": "C62", "title": "The exit status of fstrm_replay reflects delivery", "statement": "fstrm_replay exits successfully only if the frames of every file given were sent and the peer acknowledged the end of the stream. (Refuted: files of another content type, damaged files and a connection lost before the end of the stream go unnoticed. Proved: success means that every frame of the matching files, up to the first damage, was accepted by the transport.)", "quantifier": "every list of files and every behaviour of the connection", "why_tests_cant": "all failure points", "anchors": [{"file": "src/fstrm_replay.c", "symbols": ["process_file", "main"]}]}
{"id": "C63", "title": "fstrm_dump handles any file", "statement": "Dumping any file whatsoever executes no undefined behaviour. (Refuted: a data frame longer than the reader's limit makes the tool use uninitialised variables. Proved for all files without such a frame, for any behaviour of the output.)", "quantifier": "every input file, every output failure", "why_tests_cant": "all inputs", "anchors": [{"file": "src/fstrm_dump.c", "symbols": ["main", "print_data_frame"]}]}
{"id": "C64", "title": "Options of readers and writers mean what they say", "statement": "A content type of at most 256 bytes and a maximum frame size of 512..2^32-2 are accepted, anything else is refused and changes nothing; a reader or writer is created exactly when its transport has the needed method; it then announces the first accepted content type and never reads more than the last accepted maximum; and an object whose options were accepted can be opened. (The last part is refuted: content types too long together for one control frame are accepted one by one, and the writer then fails every open without sending anything.)", "quantifier": "every history of option calls followed by every history of calls on the object", "why_tests_cant": "unbounded option histories combined with all later behaviour", "anchors": [{"file": "fstrm/writer.c", "symbols": ["fstrm_writer_options_add_content_type", "fstrm_writer_init"]}, {"file": "fstrm/reader.c", "symbols": ["fstrm_reader_options_add_content_type", "fstrm_reader_options_set_max_frame_size", "fstrm_reader_init"]}]}
{"id": "C65", "title": "The I/O thread is safe over the lock-free queues it really uses", "statement": "With one producer per queue, whatever the interleaving of the memory accesses of the producers and the I/O thread and however long stores are delayed: payloads reach the medium in submission order per producer, none twice; each accepted buffer is released exactly once; destroy comes to an end; and on a healthy transport everything accepted before the shutdown request is delivered.", "quantifier": "every queue capacity, element size, number of producers and submissions, every interleaving and store delay, every behaviour of the transport", "why_tests_cant": "composes memory-level races with the thread's own races; no test controls both", "anchors": [{"file": "fstrm/iothr.c", "symbols": ["fstrm_iothr_submit", "fstrm__iothr_thr", "fstrm_iothr_destroy"]}, {"file": "libmy/my_queue_mb.c", "symbols": ["my_queue_mb_insert", "my_queue_mb_remove"]}]}
{"id": "C66", "title": "What is submitted is what is read back", "statement": "Producers submit payloads to the I/O thread of a file writer, the I/O thread is destroyed, and the file is read with the file reader: if no file operation failed, reading yields payloads and then end of stream; for each producer these are its accepted submissions in order, with everything accepted before destroy and nothing else.", "quantifier": "every list of payloads per producer, every interleaving, every queue capacity, every prior file content", "why_tests_cant": "end-to-end over all schedules and payloads", "anchors": [{"file": "fstrm/iothr.c", "symbols": ["fstrm_iothr_init", "fstrm_iothr_submit", "fstrm_iothr_destroy"]}, {"file": "fstrm/writer.c", "symbols": ["fstrm_writer_write"]}, {"file": "fstrm/file.c", "symbols": ["fstrm_file_writer_init", "fstrm_file_reader_init"]}, {"file": "fstrm/reader.c", "symbols": ["fstrm_reader_read"]}]}
{"id": "C67", "title": "The I/O thread is safe over locked queues shared by producers", "statement": "With any number of producers sharing each queue (the MPSC model), whatever the interleaving: each producer's accepted submissions keep its order, what reaches the medium follows the order of acceptance per queue with nothing twice, each accepted buffer is released exactly once, destroy comes to an end, and on a healthy transport everything accepted before the shutdown request is delivered.", "quantifier": "every queue capacity, element size, number of producers and submissions, every interleaving, every behaviour of the transport", "why_tests_cant": "composes lock contention with the thread's own races", "anchors": [{"file": "fstrm/iothr.c", "symbols": ["fstrm_iothr_submit", "fstrm__iothr_thr", "fstrm_iothr_destroy"]}, {"file": "libmy/my_queue_mutex.c", "symbols": ["my_queue_mutex_insert", "my_queue_mutex_remove"]}]}
{"id": "C68", "title": "The lock-free queue works on weakly ordered memory", "statement": "Also where a thread's stores may reach memory in any order and its loads may be performed in any order (ia64, the second processor the barriers are defined for), provided each store barrier waits for the stores before it and volatile loads are acquire loads: what is removed is exactly what was inserted, in order, every answer about room and count is exact, and nothing gets stuck. Each of the two provisos is needed: the removal has no read barrier of its own.", "quantifier": "every queue size and element size, every list of elements, every interleaving and every order in which stores become visible and loads are performed", "why_tests_cant": "needs a weakly ordered machine and rare reorderings", "anchors": [{"file": "libmy/my_queue_mb.c", "symbols": ["my_queue_mb_insert", "my_queue_mb_remove"]}, {"file": "libmy/my_memory_barrier.h", "symbols": ["smp_mb", "smp_wmb"]}]}
{"id": "C69", "title": "The I/O thread is woken when its documentation says", "statement": "The I/O thread is woken as soon as an input queue holds queue_notify_threshold outstanding entries, a wake-up is never lost, and destroy wakes it at once. (All three are refuted: the signal is sent when that many places are left free, a signal sent just before the thread starts to wait is lost, and destroy's own signal can be lost the same way. Proved instead: the exact level at which a submission signals, what the queues look like while the thread sleeps, that a large threshold disables waking, and that destroy waits for at most one flush timeout.)", "quantifier": "every option value, every number of producers and queues, every interleaving of submissions, signals, timeouts, spurious wake-ups and destroy", "why_tests_cant": "a lost wake-up needs a signal within a window of a few instructions; the level error only shows as latency", "anchors": [{"file": "fstrm/iothr.c", "symbols": ["fstrm_iothr_submit", "fstrm__iothr_thr", "fstrm_iothr_destroy"]}, {"file": "fstrm/iothr.h", "symbols": ["fstrm_iothr_options_set_queue_notify_threshold"]}]}
{"id": "C70", "title": "Starting the capture server", "statement": "fstrm_capture starts exactly if its options are as documented, the socket path can be cleared, the output file opened and its START frame written, and the socket bound. Options that are not as documented change no file; a start touches no file but the socket path and the output file; when the server runs, the output file holds exactly the START frame with the content type. A start that fails leaves an existing output file alone, and only a socket is ever removed from the socket path. (The last two are refuted: the output is truncated before the socket is bound, also when the content type is too long to be written, and any file at the socket path is removed.)", "quantifier": "every combination of options, every content of the file system, every outcome of each system call", "why_tests_cant": "the combinations of options, files and failing calls are too many, and the damage is on the failure paths", "anchors": [{"file": "src/fstrm_capture.c", "symbols": ["main", "parse_args", "open_read_unix", "open_read_tcp", "open_write_file", "setup_event_loop"]}]}
{"id": "C71", "title": "Meaning of the command line", "statement": "Options of fstrm_capture and fstrm_replay given in the documented ways (letters, joined letters, long names or an unambiguous beginning, value as next argument or after '='), in any order and any number, also in the environment and in files of arguments (one word per line) named there, give exactly these settings: the last value of an option, all of them for a list, the number of times for a counter; fstrm_replay goes on exactly if the type, a file and one of the two destinations are given. A numeric value is a decimal number within int, anything else is rejected, and the argument after an option is its value. (The last two are refuted: texts that are no number or out of range are accepted as some other number, and values go to the options that wait in the order of these.)", "quantifier": "every list of options, every value, every way to write them, every split between environment, arguments and files, nested to any depth", "why_tests_cant": "combinations of forms, abbreviations and repetitions are unbounded", "anchors": [{"file": "libmy/argv.c", "symbols": ["argv_process", "argv_process_no_env", "do_list", "do_arg", "string_to_value", "check_mand", "check_xor", "check_or"]}, {"file": "src/fstrm_capture.c", "symbols": ["g_args", "parse_args"]}, {"file": "src/fstrm_replay.c", "symbols": ["g_args", "parse_args"]}]}
{"id": "C72", "title": "Parsing the command line is safe", "statement": "Whatever the arguments and the environment, parsing them ends and stays within its memory, and fstrm_replay never uses a setting it was not given. (That it stays within its memory is refuted three times: many value-taking letters in one argument, or options in a file of arguments, overrun the queue of waiting options on the heap; a negative number after --argv-file dereferences NULL; and the last option of a table, so every accepted command line of fstrm_replay, makes the parser read behind the table. Proved: parsing ends, the nesting of files of arguments being bounded by the descriptors, and files that name each other in a circle are an error; any arguments without a file of arguments and with no more value-taking letters than arguments are parsed or rejected; and fstrm_replay always has its settings.)", "quantifier": "every list of arguments, any bytes, any environment, any files", "why_tests_cant": "the overruns are silent without instrumentation and need unusual arguments", "anchors": [{"file": "libmy/argv.c", "symbols": ["argv_process_no_env", "do_list", "do_arg", "check_or", "file_args"]}, {"file": "src/fstrm_replay.c", "symbols": ["parse_args", "init_writer"]}]}
{"id": "C73", "title": "A new capture file is begun exactly when asked for", "statement": "fstrm_capture writes standard output as one stream. Without --split it begins exactly one more file for each SIGUSR1, and no other; with --split at least that many. Under --split N the opening times by which the files are named are at least N seconds apart (no SIGUSR1, a clock that does not go back), and whenever an event stored a frame, the file open afterwards is named after a time less than N seconds before that event.", "quantifier": "every command line, every sequence of events, any number of rotations, every clock that does not go back (the counting theorems need no clock assumption)", "why_tests_cant": "depends on the clock and on unbounded histories of events", "anchors": [{"file": "src/fstrm_capture.c", "symbols": ["maybe_rotate_output", "rotate_output", "update_output_fname", "open_write_file", "do_sigusr1"]}]}
{"id": "C74", "title": "A successful close means the capture server has the data", "statement": "When a writer connected to fstrm_capture reports success for its close, fstrm_capture has stored every payload of the calls that reported success since the last close, in order, without loss, repetition or addition, if it fits the server's buffer; once the server has stopped they are in its files, and a reader of these files returns them in that order. (A payload too large for the server's buffer is the exception, shown by a witness: it is reported written, the close is confirmed, and it is stored nowhere.)", "quantifier": "every writer, every history of calls, every failure before, every delay and cutting of the bytes under way, any other clients, rotations and signals at the server", "why_tests_cant": "needs both programs under all interleavings and failures; the loss is silent on both sides", "anchors": [{"file": "fstrm/writer.c", "symbols": ["fstrm_writer_write", "fstrm_writer_writev", "fstrm_writer_close"]}, {"file": "src/fstrm_capture.c", "symbols": ["process_data_frame", "process_control_frame_stop", "cb_read"]}, {"file": "fstrm/reader.c", "symbols": ["fstrm_reader_read"]}]}
{"id": "C75", "title": "A writer and a capture server that agree get along", "statement": "When a writer that names no content type, or the server's as its first, talks to a running fstrm_capture over a connection that does not break, every one of its calls has the result it should have (open, write and close succeed; writing after close is refused), whatever other clients do meanwhile and however the bytes are delayed and cut; the two never wait for each other; the writer's calls need a bounded number of steps of the two, so they come to an end; and after a successful close the payloads are stored. (The one thing that can hold it up is a server already serving as many clients as --maxconns allows.)", "quantifier": "every list of calls, every payload below 2^32-4 bytes, every past and any other business of the server, every interleaving, every delay and cutting of both streams", "why_tests_cant": "absence of deadlock and of spurious failure is about all interleavings of two programs and a network", "anchors": [{"file": "fstrm/writer.c", "symbols": ["fstrm_writer_open", "fstrm_writer_writev", "fstrm_writer_close"]}, {"file": "src/fstrm_capture.c", "symbols": ["cb_accept_conn", "cb_read", "cb_write", "process_control_frame", "can_read_full_frame"]}]}
{"id": "C76", "title": "What producers submit ends up in the capture files", "statement": "When producers submit payloads to an I/O thread that is connected to fstrm_capture and whose connection does not break, then after the thread has been shut down fstrm_capture has stored everything whose submission was accepted before the shutdown request, each producer's in the order of its submissions, once, and nothing on this connection that was not submitted, as far as it fits the server's buffer; once the server has stopped it is in its files, and a reader of these files returns it. What the thread does to its connection is at all times what a caller of the writer could have done.", "quantifier": "every number of producers and queues, both kinds of queue, every payload of 1 to 2^32-5 bytes, every interleaving of their steps, every batch and flush, every delay and cutting of the bytes under way, any other clients, rotations and signals at the server; the last sentence also for connections that fail", "why_tests_cant": "a chain of five concurrent parts; a loss anywhere is silent", "anchors": [{"file": "fstrm/iothr.c", "symbols": ["fstrm_iothr_submit", "fstrm__iothr_thr", "fstrm__iothr_process_queues", "fstrm__iothr_flush_output", "fstrm__iothr_close", "fstrm_iothr_destroy"]}, {"file": "fstrm/writer.c", "symbols": ["fstrm_writer_writev", "fstrm_writer_close"]}, {"file": "libmy/my_queue_mb.c", "symbols": ["my_queue_mb_insert", "my_queue_mb_remove"]}, {"file": "libmy/my_queue_mutex.c", "symbols": ["my_queue_mutex_insert", "my_queue_mutex_remove"]}, {"file": "src/fstrm_capture.c", "symbols": ["process_data_frame", "process_control_frame_stop"]}, {"file": "fstrm/reader.c", "symbols": ["fstrm_reader_read"]}]}
{"id": "C77", "title": "Memory is owned and released as documented", "statement": "Whatever calls a program makes with control frames, options, transports, readers and writers, and whatever the peers send, no block of memory is used or released after its release; what a reader or writer takes over (its transport) is released with it, what it is lent (options, path names) stays the caller's; a destroy function sets the caller's pointer to NULL and may be called again; data a read returned exists until the next read or destruction of that reader, a control frame until the next call on the object that handed it out; and when every object has been destroyed, everything allocated has been released. (The last is refuted: a reader that is closed, opened again and reads a second end of stream forgets the frame of the first. Proved exactly: what is left is one control frame for each end of stream a reader reports after its first.)", "quantifier": "every sequence of calls, every outcome of every call on a transport, every number and size of the frames received", "why_tests_cant": "leaks and stale pointers depend on which of many failure paths were taken before", "anchors": [{"file": "fstrm/control.c", "symbols": ["fstrm_control_init", "fstrm_control_reset", "fstrm_control_destroy", "fstrm_control_decode", "fstrm_control_add_field_content_type"]}, {"file": "fstrm/reader.c", "symbols": ["fstrm_reader_init", "fstrm_reader_destroy", "fstrm__reader_next_data", "fstrm_reader_get_control"]}, {"file": "fstrm/writer.c", "symbols": ["fstrm_writer_init", "fstrm_writer_destroy", "fstrm_writer_close", "fstrm_writer_get_control"]}, {"file": "fstrm/rdwr.c", "symbols": ["fstrm_rdwr_destroy", "fstrm__rdwr_read_control", "fstrm__rdwr_write_control"]}, {"file": "fstrm/file.c", "symbols": ["fstrm_file_reader_init", "fstrm_file_writer_init"]}, {"file": "fstrm/unix_writer.c", "symbols": ["fstrm_unix_writer_init"]}, {"file": "fstrm/tcp_writer.c", "symbols": ["fstrm_tcp_writer_init"]}, {"file": "libmy/vector.h", "symbols": ["VECTOR_GENERATE"]}]}
{"id": "C78", "title": "An I/O thread starts, waits and stops as promised", "statement": "Creating an I/O thread succeeds exactly when the system offers the clocks the build asks for and the queue size is a power of two not below 2 (or there is no queue), and reports failure otherwise. Once created, it never runs into undefined behaviour or a failing assertion; destroying it gives back exactly what it made and what it was given - memory, locks, condition variable, thread, writer, and each accepted block that has a free function once - and nothing else. Its deadlines are computed with the clock its condition variable waits on, which is the best steady clock wherever the platform has a choice. (\"Reports failure\" is refuted: whenever creation cannot succeed, its clean-up signals a condition variable and joins a thread that were never made.)", "quantifier": "every platform (functions, clocks defined, clocks that work), both queue models, any number and size of queues, every sequence of calls, every decision of writer, queues and timing", "why_tests_cant": "needs platforms with missing clocks, and every failure path of the writer at the moment of destruction", "anchors": [{"file": "fstrm/iothr.c", "symbols": ["fstrm_iothr_init", "fstrm_iothr_destroy", "fstrm__iothr_free_queues", "fstrm__iothr_thr", "fstrm__iothr_maybe_open", "fstrm__iothr_flush_output"]}, {"file": "fstrm/time.c", "symbols": ["fstrm__get_best_monotonic_clock_gettime", "fstrm__get_best_monotonic_clock_pthread", "fstrm__get_best_monotonic_clocks"]}, {"file": "libmy/my_queue_mb.c", "symbols": ["my_queue_mb_init", "my_queue_mb_destroy"]}, {"file": "libmy/my_queue_mutex.c", "symbols": ["my_queue_mutex_init", "my_queue_mutex_destroy"]}]}
{"id": "C79", "title": "The environment adds options as documented", "statement": "The words of the variable ARGV_<PROGRAM> (the name after the last '/', in capitals; words separated by blanks) act exactly as arguments in front of the command line, so that for a setting with one value the command line wins; GLOBAL_ARGV may instead put them behind or leave them out (env=), forbid repeated options (multi=), forbid -x=value (close=) or let a second \"--\" resume options (lasttog=), the last word for each counting and any other word changing nothing. None of these settings changes the meaning of a line it still accepts, and whatever the environment fstrm_replay goes on only with a type, a file and exactly one destination. (Refuted: that the variable only supplies defaults - an option in it may make a complete command line unacceptable, and files listed in it cannot be taken back; that every call is defined - without a program name a null pointer is read.)", "quantifier": "every environment, every text of the two variables, every program name up to 256 bytes, every table of options, every argument list, files of arguments included", "why_tests_cant": "needs every combination of settings with every way of writing options, in two places", "anchors": [{"file": "libmy/argv.c", "symbols": ["vectorize", "preprocess_env_args", "process_env", "do_arg", "do_list", "argv_process", "argv_process_no_env"]}, {"file": "src/fstrm_capture.c", "symbols": ["parse_args"]}, {"file": "src/fstrm_replay.c", "symbols": ["parse_args"]}]}
{"id": "C80", "title": "A file whose writer closed successfully is complete, on any disk", "statement": "When close (or the close made by destroy) of a file writer reports success, the file holds the whole stream: START, the payloads of every call that reported success since the last close, in order, and STOP; a reader of the file returns exactly these. Whatever the disk refuses during any call, and wherever the program dies, the file is untouched or holds an initial part of the stream written last. The exit status 0 of fstrm_dump with an output file means the same for its copy. (A successful write alone promises nothing yet: its bytes may wait in a buffer.)", "quantifier": "every history of calls, every disk: each fopen, fwrite and fclose may fail, having stored any number of the pending bytes; every crash point", "why_tests_cant": "needs a disk that fails at a chosen byte of a chosen call; the error of the last flush shows only in the result of close", "anchors": [{"file": "fstrm/file.c", "symbols": ["fstrm__file_op_open", "fstrm__file_op_close", "fstrm__file_op_write"]}, {"file": "fstrm/writer.c", "symbols": ["fstrm_writer_writev", "fstrm_writer_close", "fstrm_writer_destroy"]}, {"file": "src/fstrm_dump.c", "symbols": ["main"]}]}
{"id": "C81", "title": "fstrm_capture's exit status tells whether its files were stored", "statement": "When fstrm_capture ends with status 0, its output files hold START, the frames it stored and STOP; after SIGHUP the frames received so far are in the file; a failing write ends the server with status 1, and whenever and however it ends, each file is an initial part of what was to be in it. (Refuted: fflush() and fclose() are not checked, so that the end of a file may be missing although the status is 0; and a failing fflush() on SIGHUP may take bytes out of the middle, after which a reader takes a payload that nobody sent from a file that looks complete. Proved: all of it when these two calls meet no error; initial parts when only fclose() does; and in any case nothing but bytes handed over, in order.)", "quantifier": "every run of the server (connections, their bytes, signals, rotations), every disk: each fwrite, fflush and fclose may fail, having stored any number of the pending bytes; every crash point", "why_tests_cant": "needs a disk that is full for a moment at a chosen call", "anchors": [{"file": "src/fstrm_capture.c", "symbols": ["open_write_start", "open_write_file", "close_write_stop", "close_write_file", "process_data_frame", "do_sighup", "main"]}]}
{"id": "C82", "title": "The I/O thread serves all its queues in turn and sleeps only when all are empty", "statement": "The I/O thread looks at its queues in a fixed cyclic order, without ever skipping one, from its start to its end. It goes to sleep only right after one look at every queue that found all of them empty, and for no longer than the configured flush timeout. So no producer is starved by others: a buffer that becomes visible in its queue behind p others is taken, after exactly these p, at the latest with the thread's (p + 1) * n-th look, n being the number of queues, whatever the other producers do.", "quantifier": "every configuration, every number of producers and queues, every interleaving, every failure of the transport, shutdown at any point", "why_tests_cant": "starvation needs a scheduler and producers that keep the other queues full for ever", "anchors": [{"file": "fstrm/iothr.c", "symbols": ["fstrm__iothr_process_queues", "fstrm__iothr_thr", "fstrm__iothr_process_queue_entry"]}]}
{"id": "C83", "title": "fstrm_dump reports what it reads", "statement": "fstrm_dump prints, in this order: the START frame and its content type (stderr), for each data frame its length (stderr) and its contents (stdout), and how the input ended, followed by a message for each failure of the output file; nothing else, for every input file and every behaviour of the output. The exit status is a failure exactly if an error message was printed, whatever any file does. A file without START is refused with one error message; a wrong number of arguments only shows the usage.", "quantifier": "every content of the input file, every behaviour of input and output (each call may fail), every number of arguments", "why_tests_cant": "what is printed depends on the whole input and on the call at which the output fails", "anchors": [{"file": "src/fstrm_dump.c", "symbols": ["main", "process_start_frame", "print_stop_frame", "print_data_frame"]}, {"file": "libmy/print_string.h", "symbols": ["print_string"]}]}
{"id": "C84", "title": "The messages of fstrm_dump and fstrm_replay can be relied on", "statement": "fstrm_dump prints FSTRM_CONTROL_STOP only if the input has a STOP frame; fstrm_replay prints a message about each file that it did not replay to its STOP frame, and an error message whenever its exit status is a failure. (Refuted: for an input that ends without STOP, even in the middle of a frame, fstrm_dump reports a STOP frame and fstrm_replay says nothing; with a content type of more than 256 bytes fstrm_replay fails without a word. Proved: in every other case a failing fstrm_replay has printed an error message.)", "quantifier": "every input file, every behaviour of files and connection", "why_tests_cant": "needs inputs that end at every possible place", "anchors": [{"file": "src/fstrm_dump.c", "symbols": ["main", "print_stop_frame"]}, {"file": "src/fstrm_replay.c", "symbols": ["main", "init_writer", "process_file"]}, {"file": "fstrm/reader.c", "symbols": ["fstrm_reader_get_control"]}]}
{"id": "C85", "title": "fstrm_replay names the files it skips", "statement": "fstrm_replay prints one warning with the name of each file that has no START frame or another content type, one error message after the frames of each file whose data section is malformed, in the order of the files, and otherwise only that the connection could not be opened, a frame could not be written or the writer could not be closed. When writing a frame fails, exactly the notes about the files before it have been printed.", "quantifier": "every list of files with every content (except frames above the limit, see C63), every behaviour of the connection, every point of failure", "why_tests_cant": "needs every mixture of good and bad files with a connection failing at every frame", "anchors": [{"file": "src/fstrm_replay.c", "symbols": ["main", "init_writer", "process_file"]}]}
{"id": "C86", "title": "Dumping a file onto itself keeps its frames", "statement": "fstrm_dump with the same file as input and output leaves a file with the frames of the input, or reports a failure. (Refuted for every size of the stdio buffer: opening the output empties the file, so only the part fetched before is left; the exit status is success and STOP is reported. Proved for every file and every disk: the result, the status and the messages are those of dumping the first B bytes of the file into another file, B being the size of the stdio buffer, so that exactly the frames lying wholly in the first B bytes remain; a complete stream of at most B bytes is left as it was.)", "quantifier": "every content of the file, every stdio buffer size from 520 bytes up, every disk (each stdio call may fail after storing any number of bytes)", "why_tests_cant": "what is lost depends on where the buffer of the C library ends in the stream", "anchors": [{"file": "src/fstrm_dump.c", "symbols": ["main"]}, {"file": "fstrm/file.c", "symbols": ["fstrm__file_op_open", "fstrm__file_op_read", "fstrm__file_op_write"]}]}
{"id": "C87", "title": "Dumping to standard output gives a copy of the stream", "statement": "fstrm_dump with the output name - writes to standard output a stream with the frames of the input, or reports a failure. (Refuted for every stream with at least one data frame: the printed form of each frame goes to standard output too, so a reader takes the printed text for a frame above its limit, while the exit status is success. Proved for every input: the exact bytes on standard output, that it is closed once and not used afterwards, the exit status, that nothing is written without a START frame, and that the output is a copy exactly when there are no data frames.)", "quantifier": "every content of the input file, every number of frames and every payload, every reader limit below 539099136 bytes", "why_tests_cant": "what a reader makes of the mixture depends on every payload and on the reader's limit", "anchors": [{"file": "src/fstrm_dump.c", "symbols": ["main", "print_data_frame"]}, {"file": "fstrm/file.c", "symbols": ["fstrm__file_op_open", "fstrm__file_op_write", "fstrm__file_op_close"]}, {"file": "libmy/print_string.h", "symbols": ["print_string"]}]}
{"id": "C88", "title": "fstrm_replay reads standard input for the name -", "statement": "In the list of files given to fstrm_replay the name - stands for standard input, wherever it occurs: with one such name the frames sent, in which order, and the exit status are those of a replay in which it is a file with the contents of standard input, whatever the connection does. (With two such names refuted: a reader closes standard input after a stream that ends with STOP, at the end of the input or has another content type, so the second uses a closed FILE, undefined in ISO C; proved exactly: everything up to there is replayed first, and the program never ends with success. If the first name found no START frame, the second goes on reading behind what was dropped.)", "quantifier": "every list of names, every content of files and standard input (except frames above the limit, see C63), every behaviour of the connection", "why_tests_cant": "depends on what standard input holds and on the position of the names", "anchors": [{"file": "src/fstrm_replay.c", "symbols": ["main", "process_file"]}, {"file": "fstrm/file.c", "symbols": ["fstrm__file_op_open", "fstrm__file_op_close", "fstrm__file_op_read"]}, {"file": "fstrm/reader.c", "symbols": ["fstrm_reader_destroy"]}, {"file": "fstrm/rdwr.c", "symbols": ["fstrm_rdwr_read"]}]}
{"id": "C89", "title": "fstrm_capture reports what it stores", "statement": "fstrm_capture prints for every output file, in order, one message when it is opened and one when it is finished, the second with the file's length and the number of data frames in it plus two (START and STOP are counted), modulo 2^64 read as a signed number; at level INFO it prints for each connection, once, when and only when it is over, the number and total size of the data frames stored for it; at level WARNING and above it prints for each frame too large to be stored, once, as soon as the frame's header has arrived, its length; and whenever it ends with a failure its last message tells why. (The last part refuted for a server that cannot finish its last file: it fails without any message about it; proved for every failure while running and at the start.)", "quantifier": "every behaviour of all peers, every interleaving of connections, signals and rotations, every clock, every failure of the files, every debug level", "why_tests_cant": "depends on how the bytes of all connections interleave with rotations and failures", "anchors": [{"file": "src/fstrm_capture.c", "symbols": ["open_write_start", "close_write_stop", "open_write_file", "close_write_file", "process_data_frame", "rotate_output", "cb_close_conn", "cb_read", "do_sighup", "cleanup", "main"]}]}
{"id": "C90", "title": "fstrm_capture neither leaks nor uses what it gave back", "statement": "Whatever its peers send, and whatever reads, writes, files, the clock and signals do, a running fstrm_capture never uses or releases memory, a descriptor, a FILE or an event object a second time or after its release, and never follows a NULL pointer; at every moment it holds exactly what its open connections, its event loop and its current output file need; when a connection ends all it held is released and nothing else; what happens on one connection leaves the others' memory alone; after an orderly shutdown nothing is left but what belonged to connections still open.", "quantifier": "every sequence of connections, received data, completed writes, disconnections and signals, and every outcome of each decision that depends on data, the clock or the system", "why_tests_cant": "a use after release shows only for particular inputs at particular moments, and a small leak per connection only after many connections", "anchors": [{"file": "src/fstrm_capture.c", "symbols": ["conn_init", "conn_destroy", "cb_close_conn", "cb_read", "cb_write", "cb_accept_conn", "can_read_full_frame", "load_control_frame", "process_control_frame", "process_data_frame", "open_write_file", "close_write_file", "update_output_fname", "rotate_output", "setup_event_loop", "cleanup"]}]}
{"id": "C91", "title": "fstrm_dump and fstrm_replay neither leak nor use what they gave back", "statement": "Whatever the input files, the output, the connection and the arguments are, fstrm_dump and fstrm_replay never use or free a library object, or memory it owns, that was freed before, and never follow a NULL pointer; when main returns every reader, writer, options object and control frame has been destroyed, with all their memory; while the program goes on it holds just what its current reader, its writer and its options need, so nothing accumulates over frames or files; fstrm_dump always ends by returning from main. (fstrm_replay calls exit while it still has its reader and writer after a failed write, and its options after an address or port that cannot be parsed; proved: nothing else is left then.)", "quantifier": "every number of frames and files, every outcome of each decision that depends on data or on the system", "why_tests_cant": "a leak per frame or file shows only in long runs, and a use after release only on the path that leads to it", "anchors": [{"file": "src/fstrm_dump.c", "symbols": ["main", "process_start_frame"]}, {"file": "src/fstrm_replay.c", "symbols": ["main", "process_file", "init_writer"]}, {"file": "fstrm/reader.c", "symbols": ["fstrm_reader_init", "fstrm_reader_read", "fstrm_reader_destroy"]}, {"file": "fstrm/writer.c", "symbols": ["fstrm_writer_init", "fstrm_writer_write", "fstrm_writer_destroy"]}]}
{"id": "C92", "title": "The option parser neither uses what it gave back nor keeps what it need not", "statement": "Whatever the command line, the environment and the files of arguments say, parsing the options of fstrm_capture and fstrm_replay never uses or frees memory or a file that was freed before; the strings the program gets are its own copies and exist until it cleans up, however they were given; cleaning up frees each of them once, and then nothing the parser allocated is left. (The last part is refuted: a string given to an option that already had one is never given back, nor is a text in the environment without words or one that is not to be used. What is left is counted exactly.)", "quantifier": "every table of options, every list of arguments, every text of the environment and every nesting of files of arguments, every way to end the program", "why_tests_cant": "a use after release needs the argument, file and option that lead to it in one run", "anchors": [{"file": "libmy/argv.c", "symbols": ["string_copy", "vectorize", "string_to_value", "file_args", "do_arg", "do_list", "preprocess_env_args", "process_env", "argv_process_no_env", "argv_cleanup"]}, {"file": "src/fstrm_capture.c", "symbols": ["parse_args", "usage", "cleanup"]}, {"file": "src/fstrm_replay.c", "symbols": ["parse_args", "usage"]}]}
{"id": "C93", "title": "A capture connection stays open exactly until its end", "statement": "fstrm_capture drops no connection without cause and keeps none past its end: at any time the connections it has open are exactly those it accepted whose peer has not closed or failed, that it did not hang up on (which it does for what breaks the protocol, C45), and on which its FINISH has not yet been written completely; a connection that is over stays over, and each open connection is there once.", "quantifier": "every number of connections, every stream, segmentation and interleaving, every signal and failure", "why_tests_cant": "unbounded histories: a connection lost or kept by mistake shows only among others", "anchors": [{"file": "src/fstrm_capture.c", "symbols": ["cb_accept_conn", "cb_close_conn", "cb_read", "cb_write", "conn_destroy"]}]}
{"id": "C94", "title": "A writer and a capture server do not deadlock over a network of any capacity", "statement": "A writer and fstrm_capture that agree on the content type get along even if the network between them holds only a few bytes at a time, down to one: a write that has to wait for room is taken up in pieces while the server reads the beginning of it, the two never wait for each other (unless the server is serving as many connections as it may), the number of moves until the calls are done is bounded independently of the capacity, every call has the result it should have, and after a successful close everything that fits the server's buffer has been stored.", "quantifier": "every capacity of at least one byte, every sequence of calls and payloads, every way writes and reads are cut, every schedule, any other clients", "why_tests_cant": "a deadlock needs full buffers in the right state on both sides, which tests with small messages never reach", "anchors": [{"file": "fstrm/unix_writer.c", "symbols": ["fstrm__unix_writer_op_write"]}, {"file": "fstrm/tcp_writer.c", "symbols": ["fstrm__tcp_writer_op_write"]}, {"file": "fstrm/writer.c", "symbols": ["fstrm_writer_write", "fstrm_writer_close"]}, {"file": "src/fstrm_capture.c", "symbols": ["cb_read", "cb_write", "can_read_full_frame", "send_frame"]}]}
{"id": "C95", "title": "Replaying files to a capture server copies them", "statement": "fstrm_replay, given files and the content type fstrm_capture stores, over a connection that does not break: it exits with success and leaves its files as they were, and by then the server has stored the payloads of all the files, in order, but for those too large for the server's buffer; the two never wait for each other whatever the network holds (unless the server is serving as many connections as it may) and need only a bounded number of moves; after an orderly shutdown a server that heard from nobody else has written a file with just these payloads, so a complete file is copied byte by byte.", "quantifier": "every number of files and payloads, every capacity of the network, every way writes and reads are cut, every schedule, any other clients", "why_tests_cant": "needs two programs and all interleavings of their steps; a test sees one of them", "anchors": [{"file": "src/fstrm_replay.c", "symbols": ["main", "process_file", "init_writer"]}, {"file": "fstrm/file.c", "symbols": ["fstrm__file_op_read"]}, {"file": "fstrm/reader.c", "symbols": ["fstrm_reader_read"]}, {"file": "fstrm/writer.c", "symbols": ["fstrm_writer_write", "fstrm_writer_destroy"]}, {"file": "src/fstrm_capture.c", "symbols": ["cb_read", "process_data_frame", "close_write_file", "main"]}]}
{"id": "C96", "title": "What is submitted to an I/O thread ends in the files of the capture server", "statement": "An I/O thread and fstrm_capture, over a connection that does not break and with content types that agree: whatever users, other clients and the network do meanwhile, the thread runs into no error; once it has been asked to stop, thread and server finish whatever others do as long as they go on at all, however little the network holds (unless the server is serving as many connections as it may); and when the thread has ended, the server has stored every payload submitted before the thread was asked to stop, each queue's in its order and each once, but for those too large for the server's buffer, and has them in its files after an orderly shutdown. At any earlier time what it has stored is the beginning of what was submitted: each queue in its order, nothing twice, nothing else.", "quantifier": "every number of users, queues and submissions, every batch size, every capacity of the network, every way writes and reads are cut, every schedule of users, thread, server and other clients", "why_tests_cant": "three parties and a network: a test sees one interleaving, and losses at the end of a session only in some", "anchors": [{"file": "fstrm/iothr.c", "symbols": ["fstrm__iothr_thr", "fstrm__iothr_process_queues", "fstrm__iothr_flush_output", "fstrm__iothr_close", "fstrm_iothr_submit", "fstrm_iothr_destroy"]}, {"file": "fstrm/writer.c", "symbols": ["fstrm_writer_open", "fstrm_writer_writev", "fstrm_writer_close"]}, {"file": "src/fstrm_capture.c", "symbols": ["cb_read", "cb_write", "process_data_frame", "close_write_file"]}]}
{"id": "C97", "title": "An I/O thread that has lost its connection tries again in time", "statement": "An I/O thread without a connection (never opened, refused, lost by a failed write or handshake) does not settle for that: each round of its loop that begins without a connection begins by reading the clock and, if the reopen interval has passed since the last attempt to open, with another attempt, before anything is taken from the queues.", "quantifier": "every history of submissions, results of all calls of the transport, clock readings, wake-ups and shutdown, every valid configuration", "why_tests_cant": "a thread that stops trying shows only after a particular failure at a particular call", "anchors": [{"file": "fstrm/iothr.c", "symbols": ["fstrm__iothr_maybe_open", "fstrm__iothr_thr", "fstrm__iothr_flush_output", "fstrm__iothr_close"]}]}
{"id": "C98", "title": "An I/O thread uses its transport legally and gives it back", "statement": "Whatever an I/O thread goes through (failed opens, handshakes, reads, writes and closes, reconnections, shutdown at any time), its transport sees no read, write or close while it is not open, nothing but close after a failed read or write, no write of more than 256 buffers, and nothing after destroy; when the thread has ended the transport has been destroyed once, and it was closed before unless the last handshake stopped before START, which cannot happen on a one-way transport whose content type can be sent.", "quantifier": "every history of submissions, results of all calls of the transport, clock readings, wake-ups and shutdown, every valid configuration, every moment the history is cut", "why_tests_cant": "an illegal call needs a failure at one particular call in one particular round", "anchors": [{"file": "fstrm/iothr.c", "symbols": ["fstrm_iothr_destroy", "fstrm__iothr_thr", "fstrm__iothr_open", "fstrm__iothr_close", "fstrm__iothr_flush_output"]}, {"file": "fstrm/writer.c", "symbols": ["fstrm_writer_open", "fstrm_writer_writev", "fstrm_writer_close", "fstrm_writer_destroy"]}]}
{"id": "C99", "title": "The usage texts show every option and fit the screen", "statement": "The usage text of fstrm_capture and fstrm_replay shows every option with its short name, the label of its value, its long name and its comment in full, in the order of the table and in columns, and no line of it is wider than 79 characters; so does the text of any other table with room for its texts, and any table's lines stay within 79 characters. The short text (usage=short) fits too and shows every option.", "quantifier": "every option table of the kinds the programs use: any number of options, any names, labels and comments, any program name", "why_tests_cant": "the texts are put together from column counts and precisions, and the wrong ones show only with texts of particular lengths", "anchors": [{"file": "libmy/argv.c", "symbols": ["usage_short", "usage_long", "display_arg", "display_option"]}, {"file": "src/fstrm_capture.c", "symbols": ["g_args", "usage"]}, {"file": "src/fstrm_replay.c", "symbols": ["g_args", "usage"]}]}
{"id": "C100", "title": "Asking for help shows it", "statement": "Whatever GLOBAL_ARGV and the command line: --usage, --help (where a program has no option of that name), any abbreviation of them and -? show every option with its comment unless the last valid word usage= of GLOBAL_ARGV asks for the short text, which still has every option with a short name; a wrong command line shows what the last valid word error= asks for, and else every option; --usage-short, --usage-long, --usage-all and their abbreviations show the text they name whatever the variable says; --version shows the version of a program that has one; no line is wider than 79 characters; what the parser says about its own options is true (--usage-all: that --help displays the help message).", "quantifier": "every option table the programs' kinds allow, every value of GLOBAL_ARGV, every abbreviation of every name, every help and version text", "why_tests_cant": "abbreviations, words and tables combine; a text that is never displayed is missed by no test that does not look for it", "anchors": [{"file": "libmy/argv.c", "symbols": ["do_usage", "process_env", "do_list", "usage_short", "usage_long"]}, {"file": "libmy/argv_loc.h", "symbols": ["USAGE_ARG", "HELP_ARG", "VERSION_ARG"]}, {"file": "src/fstrm_capture.c", "symbols": ["parse_args"]}, {"file": "src/fstrm_replay.c", "symbols": ["parse_args"]}]}
{"id": "C101", "title": "--argv-display shows every option and its value", "statement": "--argv-display prints one line for each option, in the order of the table: name and label, type, and the value its variable has, in columns; strings (file names, anything given on the command line) are printed with escapes such that only printable characters reach the terminal and the string can be read off, up to the 255 characters of a buffer; no value, however long and whatever its bytes, is written beyond that buffer; and the text tells the value.", "quantifier": "every option table of the kinds the programs use with room for its texts, every value of every variable: strings and lists of strings of any length and bytes, any number", "why_tests_cant": "escapes are one, two or four characters long, and the end of the buffer can fall anywhere in them", "anchors": [{"file": "libmy/argv.c", "symbols": ["display_variables", "value_to_string", "expand_buf", "display_option"]}, {"file": "libmy/argv_loc.h", "symbols": ["SPECIAL_CHARS", "argv_types"]}]}
{"id": "C102", "title": "Each attempt of an I/O thread to open begins a new connection", "statement": "Whenever an I/O thread (or any other user of a writer) attempts to open its transport, the transport is closed, so that the attempt makes a new connection and its handshake is the first thing the peer sees on it.", "quantifier": "every history of submissions, results of all calls of the transport, bytes sent by the peer, clock readings, wake-ups and shutdown, every valid configuration; for a writer, every sequence of calls", "why_tests_cant": "a second handshake on an old connection needs a peer that refuses in a particular way, and a test peer accepts it", "anchors": [{"file": "fstrm/iothr.c", "symbols": ["fstrm__iothr_open", "fstrm__iothr_maybe_open"]}, {"file": "fstrm/writer.c", "symbols": ["fstrm_writer_open", "fstrm__writer_open_bidirectional"]}, {"file": "fstrm/unix_writer.c", "symbols": ["fstrm__unix_writer_op_open"]}, {"file": "fstrm/tcp_writer.c", "symbols": ["fstrm__tcp_writer_op_open"]}]}
{"id": "C103", "title": "An I/O thread over a socket leaves no descriptor open", "statement": "An I/O thread whose transport is a Unix or TCP socket writer holds at most one descriptor of it at any time, exactly one while the transport is open, and never closes a descriptor it does not hold; once the thread has ended and its writer is destroyed, it holds none.", "quantifier": "every history of submissions, results of all calls of the transport, answers of the kernel to socket, connect and close, bytes sent by the peer, clock readings, wake-ups and shutdown, every valid configuration", "why_tests_cant": "a descriptor is lost only after a handshake that ends in a particular way, and one lost descriptor goes unnoticed", "anchors": [{"file": "fstrm/iothr.c", "symbols": ["fstrm__iothr_thr", "fstrm_iothr_destroy"]}, {"file": "fstrm/writer.c", "symbols": ["fstrm_writer_open", "fstrm_writer_close", "fstrm_writer_destroy"]}, {"file": "fstrm/unix_writer.c", "symbols": ["fstrm__unix_writer_op_open", "fstrm__unix_writer_op_close", "fstrm__unix_writer_op_destroy"]}, {"file": "fstrm/tcp_writer.c", "symbols": ["fstrm__tcp_writer_op_open", "fstrm__tcp_writer_op_close", "fstrm__tcp_writer_op_destroy"]}]}
