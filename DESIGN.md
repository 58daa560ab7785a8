# Formal model of fstrm: design

Everything is Coq 8.16.1 (Rocq), standard library only, under
`rocq/theories`.  Properties are listed in `properties.jsonl` (ids C01...),
theorems per property in `MANIFEST.json`.

## 1. How the code is modelled

* **Bytes and integers.**  A byte is `Coq.Init.Byte.byte`, so every byte
  string in the model is a real byte string.  C integers are `N`/`Z`; 32-bit
  and 64-bit wrap-around is written out (`mod 2^32`) where the code computes in
  a fixed width and a wrap is reachable.  Lengths of Gallina lists are `nat`.
* **Effects.**  Code that calls function pointers, the kernel, a queue, the
  clock or a callback is written as a program of type `io A` (`Io.v`): a finite
  tree of queries (`QOpen`, `QRead`, `QWrite`, `QClock`, `QRemove`, ...) with
  continuations.  `runs p tr o` says that program `p` can produce the trace
  `tr` of (query, answer) pairs and end in outcome `o`; *every* well-typed
  answer is allowed, so a theorem over `runs` covers every transport, kernel,
  clock and scheduler.  The outcome `Cut` stops a run at any query, so it covers
  every crash point.  `exec h s p` runs the same program against a concrete
  handler (file, socket, paired channel).
* **Undefined behaviour** is an explicit outcome (`Stuck (FUb _)`): loads and
  stores outside a buffer, out-of-range array indices, use of unset results.
  A construct that ISO C leaves undefined but GNU C (which the code targets)
  defines is recorded in the trace by the ghost query `QIsoUb` and the run
  continues with the GNU meaning (zero-length arrays).
* **Loops** whose bound is data dependent take fuel; running out is the
  separate outcome `Stuck FFuel`, and theorems show it does not occur (or are
  stated for every fuel, for the I/O thread's endless loop).
* **Concurrency.**  The lock-free queue is modelled at the granularity of
  single shared-memory accesses (each byte of memcpy separately, in any order)
  with x86-TSO store buffers; the locked queue at the granularity of single
  accesses between lock and unlock for any number of threads; two-party
  protocols as interleavings of two `io` programs over FIFO channels.
* **Separate files**: specifications (`Spec*.v`) mention no model helper;
  model files contain only definitions; `*_proofs.v` the proofs;
  `Prop_*.v` only the property theorems, each `exact`ed from a lemma and
  followed by `Print Assumptions`, with a concrete `Example` beside it.

## 2. Plan per property

| id | model | proof idea |
|----|-------|-----------|
| C01-C09 | control.c function by function over buffers with explicit capacity | grammar spec in `Spec.v`; soundness/completeness by induction on fields |
| C10-C11 | rdwr.c, reader.c, writer.c as `io` programs | typestate automaton over traces, invariant over API histories |
| C12-C16 | writer.c | per-function trace lemmas, induction over histories |
| C17-C24 | reader.c, file.c | decomposition of any byte string into frames and a stopping point; induction over frames |
| C25-C27 | writer.c + reader.c as two processes | the two processes are deterministic and communicate by FIFO channels, so all schedules agree (diamond); one schedule is computed symbolically |
| C28-C29 | read_bytes.h, unix_writer.c, tcp_writer.c against an arbitrary kernel response list | induction on responses; refutation by witness |
| C30-C32 | my_queue_mb.c, TSO | invariant over all schedules |
| C33-C34 | my_queue_mutex.c, any number of threads | invariant; refinement to bounded FIFO |
| C35-C44 | iothr.c as `io` program plus producers | trace invariants, induction over loop iterations |
| C45-C49 | fstrm_capture.c connection and output state machine | chunking lemma, induction over events |
| C50-C51 | fstrm_dump.c, fstrm_replay.c | composition of reader and writer lemmas |
| C52-C55 | print_string.h, vector.h, my_time.h, option parsing | direct |
| C56 | unix_writer.c, tcp_writer.c with a descriptor count | trace invariant over all histories of open/write/read/close/destroy |
| C57 | print_string.h | every output byte is printable, bounded length; induction on the string |
| C58 | my_queue_mb.c under TSO | number of steps of an insert is a function of its size only, on every schedule |
| C59 | fstrm_capture.c rotation | file-system map; induction over events |
| C60 | fstrm_capture.c against arbitrary bytes | definedness by invariant, progress by a decreasing measure |
| C61 | writer session replayed into a capture connection | composition of C12/C27 style stream lemmas with C45/C46 |
| C64 | option setters and init of readers and writers | induction over option histories, composition with C12 and C20 |
| C65 | iothr.c over my_queue_mb.c at memory-access granularity, all producers | refinement to the bounded-list system of C38-C44 |
| C67 | iothr.c over my_queue_mutex.c, several producers per queue | refinement to the bounded-list system of C38-C44 |
| C68 | my_queue_mb.c on weakly ordered memory (ia64 barriers) | invariant over all schedules, any order of stores and loads the barriers allow; witnesses without them |
| C69 | submit's signal, the I/O thread's wait and destroy's signal, queue operations as steps | invariants over all schedules; witnesses for the lost wake-ups |
| C70 | parse_args, open_read_*, open_write_file, setup_event_loop and main over a file system | case analysis of every outcome against an independent description of valid options and reachable files; witnesses for the refuted parts |
| C71 | libmy/argv.c over the option tables of fstrm_capture and fstrm_replay: environment, files of arguments, queue of waiting options, checks | a specification of ways to give options and of what they set; induction over the list of options given; correctness of decimal numbers; witnesses for the refuted parts |
| C72 | the same parser with the size of its queue, NULL entries, reads behind the table and the nesting of files as outcomes | invariants of the parser over any arguments (one lemma for every kept predicate), counting of queued options; universal counterexamples |
| C73 | the model of fstrm_capture (Capture.v), clock and calendar as environment | counting invariants over all runs; opening times recorded in the file names |
| C74 | writer.c and fstrm_capture.c (and reader.c for the files) joined by a network that keeps order and delivers a prefix in each direction | invariant of the writer's session; the FINISH the writer reads can only be the server's answer to its STOP, so C45/C46/C61 apply; composition with the reader lemmas |
| C75 | writer.c and fstrm_capture.c as one transition system (Pair.v): the writer's calls to its transport, the server's events, and a network between them | the writer's side as a weakest precondition against the answers a session earns; the server's reaction to every beginning of a session (C61); a joint invariant; progress by cases on what the writer waits for; a decreasing measure |
| C76 | iothr.c, writer.c, the queues and fstrm_capture.c joined by the network of C74 | the thread's transport trace is that of some sequence of writer calls (SpecClient.v, Iothr7_proofs.v); without failures such a writer leaves its last session unstarted or closed after reading past ACCEPT (Deliver2_proofs.v); with C40/C65/C67 and C74 this gives the data stored |
| C77 | every allocation, use and release of control.c, options, rdwr.c, reader.c, writer.c, file.c, unix_writer.c, tcp_writer.c and vector.h over a heap of numbered blocks (Mem.v); every decision that depends on data is taken from an arbitrary script | a footprint for each function in a small separation logic (Mem_proofs.v), then an invariant of whole programs: existing blocks = blocks of the variables + forgotten STOP frames, which are counted |
| C78 | creation and destruction of the I/O thread, its queues, locks, condition variable, clocks and output queue over the heap of Mem.v, locks and threads being tokens of the heap (Thread.v); platform = which functions exist, which clocks are defined, readable, waitable | footprints of every function in the logic of C77; the choice of clocks by cases |
| C79 | words of a text, name of the variable, GLOBAL_ARGV's words as a table, the parser of C71 with five settings (ArgvEnv.v) | the words are unique for every text; the parser with default settings equals that of C71, so its theorems carry over; an invariant for all settings; a simulation for multi=; good lines as for C71 |
| C80 | file.c over stdio streams with a buffer, on a disk whose answer to every stdio call is arbitrary (Stdio.v) | an invariant relating file and buffer to the bytes handed over in the current session; the writer theorems (C12-C15) say what these bytes are; fstrm_dump through the simulation of C50 |
| C81 | the stdio calls of fstrm_capture, logged by Capture.v, on the streams and disk of Stdio.v (CaptureDisk.v) | an invariant from the calls to the output files over all runs, also failing ones; what is stored or pending compared with what was handed over |
| C82 | the I/O thread's loop of Iothr.v; looks at queues read off its trace (SpecFair.v) | invariant over the loop, relating the number of looks so far to the next queue; counting looks per queue; refinement of queue contents |
| C83, C84, C85 | fstrm_dump and fstrm_replay again, with every message (Messages.v) | simulation by a client of the writer API that reports how opening, each write and closing went (SpecMessages.v); erasing the messages gives the programs of C50; an invariant over all runs for exit status and error messages |
| C86 | file.c's reader and writer on one file, the reader with its stdio buffer, the writer on the disk of Stdio.v (InPlace.v) | fstrm_dump never has written more than it has read when it reads (a predicate over its whole program), so the reader never gets anything from the overwritten file: lock-step with a dump of the first buffer full; then C50, C80 and C83 |
| C87 | src/fstrm_dump.c with the output name "-" over stdout as a stdio stream that is closed by file.c and also printed to (Dash.v) | the program simulates printing and copying frame after frame; an invariant of stdout over the writer's calls gives the exact bytes; the printed form always starts with a blank and a quote, which as a length is above every usual limit |
| C88 | src/fstrm_replay.c over a list of names of which some are "-", with one stdin shared by their file objects (StdinNames.v) | lock-step of an object named "-" with a file holding what is left of stdin, as long as it is opened once (a predicate over the reader's programs); that a reader closes its transport at STOP and at the end of input; induction over the names; for any list of names also what exactly is left of stdin after each way a stream can end |
| C89 | fstrm_capture again with its messages and counters (CaptureSay.v) | erasing the messages gives the model of C45; a weakest precondition for each function over the messages so far, then an invariant over all runs from messages and counters to files and connections; the read loop once more with the frames it skips |
| C90 | memory, descriptors, FILE and libevent objects of fstrm_capture as blocks (CaptureMem.v), decisions arbitrary | the separation logic of C77: a footprint for each function, then an invariant over all event sequences |
| C91 | fstrm_dump and fstrm_replay in the memory model of C77 (ToolsMem.v), decisions arbitrary | footprints of the library functions composed along both programs; induction over the frames and files |
| C92 | the option parser in the memory model of C77 (ArgvMem.v): copies of values, arrays, the queue, texts of the environment, files of arguments inside each other; decisions arbitrary | footprint of every function relative to what the caller holds, induction over arguments, lines and nesting; an invariant ties the strings to the options given |
| C93 | the events of fstrm_capture (Capture.v), any history | the end of a connection defined from the history and the actions (SpecCaptureOpen.v); induction over the history in both directions |
| C94 | the pair of C75 with writes in pieces and a network of bounded capacity (PairBounded.v) | simulation: a state with a write in progress stands for the state of Pair.v in which it has been done; the server cannot finish a session before it has read the STOP frame to the last byte; progress by cases on whether there is room |
| C95 | the program of fstrm_replay (Tools.v) in place of a list of calls in the pair of C94: Pair.v and PairBounded.v take any program that uses a writer | C50 relates fstrm_replay to a program that only writes; its weakest precondition against the answers of a server; then the invariant, progress and measure of C94, which do not depend on the program; what a server that heard nobody else has stored goes to its file (C46) |
| C96 | the I/O thread's program (Iothr.v) with its users and queues in the pair of C94: calls of its writer go to the network, the others to the queues, the flag and the clock (PairThread.v) | a weakest precondition of the thread against the answers a server gives (every open, write and close succeeds, the stream is READY START data STOP); the invariant and progress of C94 carried over by an equivalent list of answers; termination from C36's bound on the thread's calls after shutdown |
| C97 | the I/O thread (Iothr.v); connected, the last attempt and the beginning of a round are read off the trace (SpecComeback.v) | a weakest precondition of the loop with an invariant that says: if the thread takes itself to be connected the trace says so too, and the thread's time of the last attempt is that of the trace |
| C98 | the I/O thread (Iothr.v); the transport as its implementor sees it (SpecTrace.v) | the thread is a client of its writer (C76), so C10, C11 and C13 carry over; calls that are not the writer's do not matter to the transport |
| C99 | the usage texts of libmy/argv.c over any table, and the texts of the tables of both programs (Usage.v) | a function that follows the columns of a text and fails beyond 79; each piece printed moves the column by what the code counts; induction over the table |
| C100 | the options of the parser itself and the words usage= and error= of GLOBAL_ARGV (UsageChoice.v), over the texts of Usage.v and the words of ArgvEnv.v | the last valid word of a kind decides (fold over the words); the abbreviations of a name are finitely many and each is decided; lines end in a newline, so texts put one below the other stay narrow |
| C101 | display_variables, value_to_string and expand_buf (Variables.v), writes outside the buffer as a distinct outcome | induction over the string with the position in the buffer; the 256 bytes decided one by one; the reading of escapes is deterministic; columns by arithmetic as for C99 |
| C102 | nothing new: iothr_life and writer_life with their transport (Iothr.v, Writer.v, Rdwr.v) | invariant of the trace: an open on an open transport comes after a stalled handshake; every other part of the code asks for no open; the thread as a client of the writer |
| C103 | nothing new: iothr_life (Iothr.v) with the socket writer (Socket.v) answering its opens and closes (SpecThreadFd.v) | the state of the transport and the connected flag agree; the writer's life ends with destroy; C98 |
| C66 | iothr.c + writer.c + file.c + reader.c + my_queue_mb.c | composition of C65, C22 and the reader lemmas |
| C62-C63 | fstrm_replay.c, fstrm_dump.c | composition with reader and writer lemmas, witnesses |

Where the property as a user would state it is false of the code, a theorem
`..._refuted` gives a witness computed in the model, and `..._partial` (or a
theorem with the exact condition) proves what does hold.

## 3. Trusted base

1. **Coq 8.16.1's kernel** (with its virtual machine: several examples and
   refutation witnesses are computed by `vm_compute`).
2. **No axioms.**  Each property theorem is followed by `Print Assumptions` in
   its `Prop_*.v`; every one of them prints `Closed under the global context`.
   Section 6 lists the theorems.  (`vcheck`'s whole-development listing also shows seven
   `Coq.ssr.ssrunder` interface axioms of the standard library, which come with
   loading it; no theorem here uses them.)
3. **The transcription of C into Gallina.**  Each model definition cites the
   lines it models and says where it simplifies.  The general simplifications:
   * memory allocation succeeds or the process aborts (`my_alloc.h` does exactly
     that); the model does not contain the abort;
   * violations of an API contract (`assert`, use after destroy) that a caller
     could commit are not generated by the call histories quantified over,
     except where a theorem is about them (`ub_contract`);
   * threads: x86-TSO for the lock-free queue (the fences of
     `my_memory_barrier.h` are `mfence`-like and drain the store buffer);
     `pthread_mutex_*` gives mutual exclusion; `pthread_cond_timedwait` may
     return at any time with any result;
   * the kernel: `read`, `sendmsg`, `connect`, `clock_gettime` may answer
     anything their manual pages allow.  Regular files behave as in `File.v`:
     `fwrite` appends, `fread` returns the stored bytes, except where a theorem
     quantifies over arbitrary answers.  In `Stdio.v` each stdio call may store any
     number of the pending bytes and fail; after a failure a part of the rest may
     stay pending, never out of order; `fclose` and `fflush` report success only if
     nothing is left; a failing `fopen` leaves the file alone;
   * libevent: `bufferevent` and `evbuffer` are a byte queue and callbacks
     (`Capture.v`), and `bufferevent_write` succeeds.
4. **The specifications** (`Spec*.v` and the statements in `Prop_*.v`): that
   they say what the English in `properties.jsonl` says.

## 4. What is modelled and what is not

| source | lines | model file |
|--------|-------|------------|
| fstrm/control.c | all functions (26-494) | Control.v |
| fstrm/fstrm-private.h | be32 load/store 80-108, rdwr struct 138-150 | Bytes.v, Rdwr.v |
| fstrm/rdwr.c | all functions (36-277) | Rdwr.v |
| fstrm/reader.c | all functions (27-447) | Reader.v |
| fstrm/writer.c | all functions (26-446) | Writer.v |
| fstrm/file.c | all functions (22-172) | File.v (a disk that never fails) |
| fstrm/file.c | output: 61-89, 108-129 | Stdio.v (buffered stdio on a disk that may fail at any call) |
| fstrm/file.c | reader and writer on one file: 61-129 | InPlace.v (for `fstrm_dump FILE FILE`) |
| fstrm/file.c, src/fstrm_dump.c | the output name "-": 61-120 of file.c, 85-229 of fstrm_dump.c | Dash.v (writing to stdout does not fail) |
| fstrm/file.c | the input name "-": 61-106, for several readers | StdinNames.v (the end of stdin is final) |
| fstrm/unix_writer.c | all functions (36-224) | Socket.v, Misc.v (path option) |
| fstrm/tcp_writer.c | 82-285 | Socket.v, Misc.v (address and port options) |
| fstrm/iothr.c | option setters, init, input queues, submit, thread loop, destroy (28-640) | Iothr.v |
| fstrm/iothr.c | condition variable: submit 436-445, wait 601-640, destroy 369-371 | Wakeup.v |
| src/fstrm_capture.c | start: parse_args 310-356 (after argv_process), open_read_unix/tcp 358-425, setup_event_loop 1147-1182 (bind), main 1228-1266 | Startup.v (paths name distinct files; regular files, sockets, directories) |
| libmy/argv.c | string_to_value 1199-1466 (the types in use), check_or 1863-1895, check_xor 1954-1991, check_mand 2047-2090, file_args 2164-2270, do_arg 2302-2359, is_number 2382-2403, do_list 2435-2841, argv_process_no_env 3119-3250 | Argv.v (messages left out; ARGV_MAND/ARGV_MAYBE and unused types left out; GLOBAL_ARGV unset; stdin as a file of arguments is a file named "-") |
| libmy/argv.c | vectorize 333-420, preprocess_env_args 2844-2877, process_env 2896-3092, do_arg and do_list with all settings, argv_process 3273-3290 | ArgvEnv.v (getenv() is any function from names to texts) |
| libmy/argv.c | file_args 2164-2283 with the descriptors of nested files and the standard input | ArgvOpen.v (default settings) |
| src/fstrm_capture.c, src/fstrm_replay.c | option tables 141-215 and 56-99; replay parse_args 111-127 and the settings init_writer reads | Argv.v |
| libmy/my_queue_mb.c, my_memory_barrier.h | all functions; x86-64 (TSO) and ia64 (weakly ordered) | Queue.v, QueueWeak.v |
| fstrm/iothr.c + libmy/my_queue_mb.c together | thread, producers and queues, one step per memory access | System.v |
| fstrm/iothr.c + libmy/my_queue_mutex.c together | thread, several producers per queue | SystemMutex.v |
| libmy/my_queue_mutex.c | all functions | QueueMutex.v (creation checks in Queue.v) |
| libmy/read_bytes.h | all | Socket.v |
| libmy/vector.h | operations used or usable by fstrm (36-187) | Vector.v |
| libmy/my_time.h | all arithmetic (33-73) | Misc.v |
| libmy/print_string.h | all | Misc.v |
| src/fstrm_capture.c | 69-136, 217-226, 274-298 and 329-352 (setup), 427-1144 (connections, rotation), 1251-1281 (main loop hooks) | Capture.v; its stdio calls on a disk that may fail: CaptureDisk.v; its counters and messages (levels ERROR to INFO): CaptureSay.v |
| fstrm/writer.c and src/fstrm_capture.c together | the writer's transport calls joined to the server's events by a network that keeps order; connections do not break; kernel buffers unlimited (Pair.v), or limited on the way to the server, writes then taken up piece by piece (PairBounded.v); the writer used by a list of calls or by any program, such as fstrm_replay or the I/O thread (PairThread.v; CLOCK_MONOTONIC shows at least the reopen interval, so that the first open is not put off) | Pair.v, PairBounded.v, SpecPairReplay.v |
| src/fstrm_dump.c | 33-229 | Tools.v, with all messages Messages.v |
| src/fstrm_replay.c | 129-292 | Tools.v, with all messages Messages.v |
| fstrm/control.c, rdwr.c, reader.c, writer.c, file.c, unix_writer.c, tcp_writer.c, libmy/vector.h, ubuf.h | every allocation, use and release of memory | Mem.v (contents of blocks and the decisions that depend on them are arbitrary) |
| src/fstrm_capture.c | creation, use and release of memory, descriptors, FILEs and libevent objects: 217-298, 427-1113, 1124-1182, 1211-1281 | CaptureMem.v (contents and the decisions that depend on them are arbitrary; the option parser's memory is left out) |
| src/fstrm_dump.c, src/fstrm_replay.c | creation, use and release of library objects | ToolsMem.v (contents and decisions are arbitrary) |
| libmy/argv.c | allocation, use and release of memory and files | ArgvMem.v (contents and decisions are arbitrary; writing behind the queue and NULL entries are in Argv.v, C72) |
| libmy/argv.c | `usage_short`, `usage_long`, `display_arg`, `display_option` | Usage.v (option kinds of the programs' tables; lengths below 2^31) |
| libmy/argv.c | `do_usage`, the words usage= and error= of `process_env`, the special long options and -? of `do_list` | UsageChoice.v (argv_error_stream is never NULL in the programs) |
| libmy/argv.c | `display_variables`, `value_to_string`, `expand_buf` | Variables.v (types of the programs' tables; isprint() in the C locale) |
| fstrm/iothr.c (init, destroy, the thread's loop), fstrm/time.c, init and destroy of both queues | memory, locks, condition variable, thread and clocks | Thread.v (steps of the thread between the program's calls are whole rounds; concurrency is in the models of C36-C43 and C65-C67) |

Not modelled:

* of `libmy/argv.c`: option types and positional arguments no table uses;
* `fstrm_capture.c` libevent and signal set-up beyond what can fail, privilege and time zone
  handling, `strftime` (a function from time to name in the model);
* `libmy/ubuf.h` beyond the `vector.h` operations it instantiates,
  `my_alloc.h` (abort on failure), `getaddrinfo`/`inet_pton` internals (a predicate on the text);
* `my_queue.h`'s build-time choice of queue: both queues are modelled;
* memory models other than TSO and the ia64-like one of QueueWeak.v (store
  buffers emptied in any order, loads in any order except after an acquire
  load; `smp_mb` in the removal is taken to wait for its loads and stores; that
  GCC makes volatile loads acquire loads on ia64 is trusted), and compiler
  reordering of plain accesses around volatile ones.

## 5. Findings

Places where a property a user would expect fails in this code.  Each has a
`_refuted` theorem (or a theorem with the exact condition) in `Prop_*.v`.

| property | finding |
|----------|---------|
| C06, C07 | a control frame whose payload is 505..512 bytes is legal and decodes with its header, but cannot be encoded with its header (the limit of 512 is applied to header and payload together) |
| C09 | a STOP object given a content type reports zero content types but returns one at index 0 |
| C11 | a reader that received bytes it refuses (they begin no stream it takes), or a writer whose open was refused by its peer, is destroyed without its transport being closed |
| C16 | a zero-length payload is accepted, written as the escape sequence of a control frame and hides what follows; of a payload of 4 GiB or more only (length mod 2^32) bytes are read back |
| C19 | on a file, a stream cut inside a frame gives the same read results as a complete one |
| C20 | a frame above the limit makes `fstrm_reader_read` return success without data |
| C24 | `get_control` returns success with a null control frame, or (after a failed reopen) a frame of another type, or one of the right type holding the beginning of a malformed frame that was refused |
| C26 | a writer offered several content types compares only its first one |
| C29 | a short `sendmsg` makes the socket writers resend earlier buffers and read out of bounds |
| C35 | `input_queue_size` 6 is accepted and makes `fstrm_iothr_init`'s failure path undefined |
| C40 | with a clock below the reopen interval the first open is postponed and submitted data is discarded |
| C41 | the batch byte count wraps at 2^32 (`C41_batch_exactly`: only the first frame of a batch can be miscounted) |
| C44 | only timed-out waits flush: other wake-ups postpone the flush indefinitely (`C44_kept_only_by_wakeups`: nothing else does) |
| C46, C49, C60 | `fstrm_capture` adds 4 to the announced length in 32 bits: 2^32-4 loops forever, 2^32-3..2^32-1 store fragments (`C60_hang_exactly`, `C46_any_files`: nothing worse happens, on any stream) |
| C47 | `fstrm_capture` stores data frames sent before any handshake |
| C49 | a frame larger than the buffer limit stalls a connection whose buffer is full when its size becomes known (`C49_stalls_exactly`); `--buffersize` below 4 is accepted and stalls every connection before its first frame |
| C53 | `name##_extend(v, v)` copies from the freed allocation when room must be made (no caller in the tree does it) |
| C52 | `print_string` does not escape backslashes, so output is ambiguous |
| C55 | the port text may be empty or a negative number far out of range |
| C56 | destroying a connected socket transport leaks its descriptor |
| C59 | SIGUSR1 without a calendar-dependent name truncates the file just written |
| C51 | `fstrm_dump` succeeds on truncated input and writes a STOP frame after it |
| C62 | `fstrm_replay` exits 0 although the close failed or input was skipped |
| C64 | content types too long together for one READY frame are accepted by the options; the writer then can never open |
| C68 | the removal from the lock-free queue has no read barrier between reading the producer's position and the element: it is right only because volatile loads are acquire loads on ia64 (and loads are ordered on x86) |
| C69 | `queue_notify_threshold` is documented as the number of outstanding entries that wakes the I/O thread, but is compared with the space left: by default (512 entries, threshold 32) 479 entries must wait; a threshold of at least the capacity disables waking; signals are sent without the lock, so they can be lost, also destroy's (it then waits for the flush timeout) |
| C70 | fstrm_capture opens (and truncates) its output before it binds its socket, so a start that fails because the address is taken has already destroyed the existing capture and leaves a START frame without STOP; a content type longer than 256 bytes, which can never be written, is only noticed after the output was emptied. Whatever file is at the `--unix` path is removed, not only a socket, also by starts that then fail; the same path for `--unix` and `--write` never works but removes the file. |
| C71, C72 | libmy/argv.c: the queue of options that wait for a value has as many places as there are arguments, but each letter of a cluster and each option in a file of arguments takes one: `fstrm_capture -www` writes behind a heap block, a file of three orderly `-w`, `x` pairs does the same (`C71_from_files` gives the exact number), and the number of such writes is chosen by the caller (also through the environment variable ARGV_FSTRM_CAPTURE). `--argv-file -5` dereferences NULL. Files of arguments that name each other in a circle are opened inside each other until no descriptor is left, which ends the program with status 1 (`C72_circle`); the nesting has no other bound, so with a very high limit on descriptors the stack (more than 1 KiB for each) is exhausted first. check_or reads `(which_p + 2)->ar_short_arg` before it knows that `which_p + 1` is not the last entry, so the last option of each table (`--gmtime`, and the mandatory `-r` of fstrm_replay) reads behind the table. Numbers are read with atoi(): `--maxconns=ten` is 0 and `4294967297` is 1. Any beginning of `--argv-file` that names no option, such as `--a`, reads a file of arguments |
| C74 | a payload larger than the buffer of fstrm_capture is reported written, the session is ended with FINISH and close reports success, but it was dropped: the writer has no way to know |
| C77 | a reader that is closed, opened again and reads a second STOP overwrites `control_stop` (reader.c:345) without destroying the first frame: three blocks are leaked each time |
| C78 | every failing `fstrm_iothr_init` is undefined: its failure path calls `fstrm_iothr_destroy` on the half-built object, which signals an uninitialised condition variable, joins a thread that was never created and, past that, removes from NULL queues (iothr.c:329-331, 362-385) |
| C79 | ARGV_FSTRM_REPLAY="-u path" makes every command line with -a unacceptable, and the files of -r in it cannot be replaced: the variable is not a set of defaults |
| C81 | `fstrm_capture` ignores the results of `fclose` (lines 591, 612) and `fflush` (496, 1141): it exits with status 0 although the end of a file is missing, and a flush that fails for a moment on SIGHUP may leave a hole that makes a reader return a payload nobody sent, from a file that looks complete |
| C84 | for an input that ends without STOP, even inside a frame, `fstrm_dump` prints `FSTRM_CONTROL_STOP.` (src/fstrm_dump.c:75-80: `fstrm_reader_get_control` succeeds with a NULL control frame and the control frame is not looked at) and `fstrm_replay` prints nothing and exits with status 0 |
| C84 | `fstrm_replay` with a content type of more than 256 bytes exits with status 1 and prints nothing (src/fstrm_replay.c:138-144) |
| C86 | `fstrm_dump FILE FILE` empties the file before it is read: only the frames in the first stdio buffer (4096 bytes with the GNU C library) are left, and the tool reports a STOP frame and exits with status 0 (src/fstrm_dump.c:152-163) |
| C87 | `fstrm_dump IN -` mixes the printed form of each data frame with the frames on stdout; with at least one data frame the output cannot be read as a stream (a reader takes the text for a frame of 539099136 bytes or more, and fstrm_dump on that output runs into C20), yet the exit status is 0 (src/fstrm_dump.c:85-93, fstrm/file.c:66-67) |
| C88 | `fstrm_replay -r - -r -` uses stdin after the first reader has closed it with fclose(), which is undefined (fstrm/file.c:66-67 and 83); stdin is left open only if the first reader stopped at something that is no START frame, or at a control frame that is broken but not empty, and then the second goes on behind it (`C88_any`) |
| C89 | when fstrm_capture cannot write the STOP frame or close the file at shutdown it exits with a failure but its last message is the one of every orderly shutdown |
| C89 | fstrm_capture's "wrote N frames" counts the START and STOP frames of the file, "read N frames" (per connection) counts data frames only |
| C90 | connections still open when fstrm_capture shuts down are never released by it (the system does that when the process ends) |
| C91 | fstrm_replay calls exit() with its reader and writer still there after a failed write, and with its options after a bad address or port: the system takes them back |
| C92 | `-w a -w b`: the first string is never given back, nor is the text of ARGV_FSTRM_CAPTURE when it holds only blanks or GLOBAL_ARGV says env=none (libmy/argv.c:1298-1303, 2874-2876, 3202-3222): `C92_gives_back_refuted`, counted exactly by `C92_cleaned_up_partial`. A second argv_cleanup would free the single strings again, as their pointers stay (3501-3505); neither program calls it twice |
| C79 | with an empty argument list (argc 0) argv.c:3165-3166 reads through the null argv[0] |
| C63 | `fstrm_dump` uses an uninitialised pointer and length after an oversize frame |
| C99 | libmy/argv.c: with usage=short fstrm_capture does not mention --localtime and --gmtime (flags without a short name are skipped, 561-564); for an option with a value and a name of 30 characters but no short name the precision of the label becomes negative, so the label is printed in full and the line is wider than the screen (778-780, 919) |
| C100 | libmy/argv.c: --usage-all says that --help displays the help message, but the test for "help" at 2588 is never reached because 2551 takes it as "usage"; argv_help_string is never displayed |
| C101 | libmy/argv.c: --argv-display prints (null) for an unset string and for the string "(null)" (1511-1518); commas in the entries of an array are not escaped (1821-1826), and no entries looks like one entry "no entries" |
| C102 | fstrm/writer.c: fstrm_writer_open does not close when the handshake is refused, so the next attempt of an I/O thread calls open on an open transport; unix_writer.c:73-75 and tcp_writer.c:87-89 then report success at once, so READY is sent a second time on the same connection. (The theorem shows the open on an open transport and the second READY; how a particular peer reacts is not part of it) |
| C103 | fstrm/unix_writer.c, tcp_writer.c: destroy only frees memory, so a thread that ends after a refused handshake (see C102) leaks the descriptor of the connection |

## 6. Assumptions of each theorem

`Print Assumptions` prints `Closed under the global context` (no axioms at all)
for every theorem below; the list is generated from the `Prop_*.v` files.

* `Prop_Argv.v`: `C71_capture`, `C71_capture_start`, `C71_replay`, `C71_as_documented`, `C71_wrong_rejected`, `C71_missing_rejected`, `C71_stray_rejected`, `C71_after_dashes`, `C71_from_files`, `C71_every_file_is_a_text`, `C71_no_file`, `C71_shows_and_ends`, `C71_numbers`, `C71_flag_with_value`, `C71_bad_numbers_refuted`, `C71_value_follows_refuted`, `C72_queue_overrun_refuted`, `C72_orderly_file_refuted`, `C72_null_refuted`, `C72_self_file_refuted`, `C72_reads_past_refuted`, `C72_safe_partial`, `C72_replay_has_settings`
* `Prop_ArgvEnv.v`: `C79_words`, `C79_choice`, `C79_supplied`, `C79_variable`, `C79_line`, `C79_later_wins`, `C79_reject`, `C79_no_equals`, `C79_resume`, `C79_replay_settings`, `C79_defined_refuted`, `C79_overrides_refuted`, `C79_files_stay_refuted`
* `Prop_ArgvMem.v`: `C92_parsed`, `C92_cleaned_up_partial`, `C92_nothing_left_partial`, `C92_gives_back_refuted`
* `Prop_ArgvNum.v`: `C71_numbers_exactly`
* `Prop_ArgvOpen.v`: `C72_ends`, `C72_circle`, `C71_from_open_files`, `C71_enough_descriptors`, `C71_standard_input`
* `Prop_Capture.v`: `C45_reaction`, `C45_reaction_unique`, `C45_segmentation`, `C45_any_stream`, `C45_any_unique`, `C45_any_agrees`, `C46_closed_files_partial`, `C46_running_files_partial`, `C46_verbatim_partial`, `C46_any_files`, `C46_any_verbatim`, `C46_fragment_refuted`, `C47_data_before_handshake_refuted`, `C47_answers`, `C47_negotiated_partial`, `C47_any_negotiated`, `C48_limit`, `C48_unlimited`, `C48_counter_in_range`, `C49_skip_partial`, `C49_buffer_bound`, `C49_never_stalls_partial`, `C49_stall_refuted`, `C49_stalls_exactly`, `C49_wrapped_refuted`, `C59_sigusr1_overwrites_refuted`, `C59_distinct_names_kept_partial`, `C59_timed_rotation_partial`, `C59_survivors_exactly`, `C59_no_calendar_keeps_last`, `C59_kept_exactly`, `C73_standard_output`, `C73_only_on_request`, `C73_every_request`, `C73_not_early`, `C73_not_late`, `C60_defined`, `C60_keeps_running_partial`, `C60_hang_refuted`, `C60_hang_exactly`, `C60_answers_fail`, `C61_session`, `C61_closes_after_finish`
* `Prop_CaptureDisk.v`: `C81_clean_exit_stored_partial`, `C81_confirmed_on_disk_partial`, `C81_sighup_stores_partial`, `C81_healthy_disk`, `C81_write_errors_end`, `C81_always_prefixes`, `C81_exit_stores`, `C81_nothing_else`, `C81_clean_exit_stored_refuted`, `C81_frames_intact_refuted`
* `Prop_CaptureMem.v`: `C90_accounted`, `C90_gone`, `C90_others`, `C90_end`
* `Prop_CaptureOpen.v`: `C93_open_exactly`, `C93_looked_up`, `C93_for_good`
* `Prop_CaptureSay.v`: `C89_same_runs`, `C89_same_end`, `C89_files`, `C89_all_files`, `C89_connections`, `C89_numbers`, `C89_skips`, `C89_failures_explained_partial`, `C89_failures_explained_refuted`
* `Prop_Comeback.v`: `C97_tries_again`
* `Prop_Control.v`: `C01_control_round_trip`, `C01_built_object`, `C02_control_wire_format`, `C03_encoded_size_exact`, `C04_decode_accepts_exactly_wellformed`, `C05_decode_memory_safe`, `C06_decode_canonical_partial`, `C06_decode_injective`, `C06_decode_canonical_refuted`, `C06_reencode_exactly`, `C07_encodable_iff_fits`, `C07_built_objects`, `C07_every_history`, `C07_every_legal_frame_encodable_refuted`, `C07_untyped_object_encodes_undecodable`, `C08_match_semantics`, `C09_accessors_on_decoded`, `C09_accessors_agree_refuted`, `C09_accessors_any`, `C09_accessors_agree_exactly`
* `Prop_Dash.v`: `C87_stdout`, `C87_any_stdout`, `C87_no_stream`, `C87_oversize_refuted`, `C87_copy_exactly`, `C87_copy_refuted`
* `Prop_Deliver.v`: `C74_close_ends_session`, `C74_close_means_stored`, `C74_close_means_in_files`, `C74_confirmed_is_read_back`, `C74_oversize_lost_refuted`
* `Prop_Disk.v`: `C80_close_means_on_disk`, `C80_destroy_means_on_disk`, `C80_read_back`, `C80_always_a_prefix`, `C80_dump_on_disk`, `C80_dump_prefix`, `C80_without_errors`
* `Prop_Fair.v`: `C82_round_robin`, `C82_waits_when_empty`, `C82_served`, `C44_kept_only_by_wakeups`
* `Prop_InPlace.v`: `C86_same_as_first_block`, `C86_what_remains`, `C86_first_ones`, `C86_small_file_unchanged`, `C86_success_means`, `C86_in_place_refuted`
* `Prop_Iothr.v`: `C35_input_queue_size_refuted`, `C35_setters_partial`, `C35_documented_options_work`, `C36_hand_out`, `C36_exclusive`, `C36_by_index`, `C37_submit_results`, `C38_released_at_most_once`, `C38_released_exactly_once`, `C38_nothing_left_behind`, `C38_left_over_released`, `C38_no_use_after_release`, `C39_order`, `C40_lossless`, `C40_unidirectional_healthy`, `C40_early_clock_loss`, `C41_batch_exactly`, `C41_batch_limits_partial`, `C41_no_overrun`, `C41_byte_limit_refuted`, `C42_reopen_pacing`, `C42_no_accumulation`, `C43_shutdown_terminates`, `C43_shutdown_drains`, `C44_timeout_flushes_partial`, `C44_flush_deadline_refuted`
* `Prop_Mem.v`: `C77_accounted`, `C77_released_partial`, `C77_nothing_left_partial`, `C77_data_stays`, `C77_control_stays`, `C77_others_untouched`, `C77_released_refuted`
* `Prop_Messages.v`: `C83_dump_reports`, `C83_dump_reports_alone`, `C83_dump_refusal`, `C83_failure_is_explained`, `C83_same_program`, `C83_numbers`, `C83_arguments`, `C84_stop_message_refuted`, `C84_replay_truncation_refuted`, `C84_replay_fails_silently`, `C84_replay_explains_partial`, `C85_replay_reports`, `C85_every_file_has_a_note`, `C85_note_is_unique`, `C85_same_program`
* `Prop_Misc.v`: `C53_contents_preserved`, `C53_growth_terminates`, `C53_index_out_of_range_aborts`, `C53_extend_by_itself_uses_freed_memory`, `C53_extend_by_itself_after_reserve`, `C54_add_exact`, `C54_sub_exact`, `C54_add_defined`, `C54_sub_defined`, `C54_sleep_exact`, `C52_text_spells_payload`, `C52_printing_unambiguous_refuted`, `C52_printing_unambiguous_partial`, `C52_ambiguous_exactly`, `C57_printed_text_is_harmless`, `C57_one_line_per_frame`, `C55_port_texts`, `C55_tcp_options`, `C55_port_is_a_number_refuted`, `C55_unix_path_accepted`, `C55_unix_path_stored`
* `Prop_Net.v`: `C25_outcome_is_a_function`, `C25_handshake_outcome`, `C25_outcome_reached`, `C26_common_type_found_refuted`, `C26_disjoint_types_rejected_refuted`, `C26_single_type_negotiation_partial`, `C26_opens_exactly`, `C27_end_to_end_delivery`
* `Prop_Options.v`: `C64_writer_options`, `C64_reader_options`, `C64_init`, `C64_options_to_stream`, `C64_options_bound_reads`, `C64_accepted_options_usable_refuted`, `C64_unsendable_types`
* `Prop_Pair.v`: `C75_results`, `C75_never_stuck`, `C75_bounded`, `C75_can_finish`, `C75_delivered`
* `Prop_PairBounded.v`: `C94_capacity`, `C94_results`, `C94_never_stuck`, `C94_bounded`, `C94_can_finish`, `C94_delivered`
* `Prop_PairReplay.v`: `C95_stored`, `C95_never_stuck`, `C95_bounded`, `C95_can_finish`, `C95_copy`, `C95_identical`
* `Prop_PairThread.v`: `C96_works`, `C96_stored`, `C96_in_files`, `C96_at_any_time`, `C96_never_stuck`, `C96_can_finish`, `C96_ends`
* `Prop_Post.v`: `C76_thread_is_client`, `C76_posted_is_stored`, `C76_posted_is_in_files`, `C76_posted_is_read_back`
* `Prop_Queue.v`: `C30_spsc_fifo`, `C30_spsc_nothing_stuck`, `C31_capacity`, `C31_answers_are_exact`, `C32_two_producers_lose_an_element`, `C33_mutex_queue_linearizable`, `C34_queue_sizes`, `C58_insert_is_wait_free`
* `Prop_QueueWeak.v`: `C68_weak_memory_fifo`, `C68_weak_memory_answers`, `C68_weak_memory_nothing_stuck`, `C68_acquire_loads_needed`, `C68_store_barrier_needed`
* `Prop_Reader.v`: `C10_reader_legal_transport_use`, `C10_reader_sends_only_handshake`, `C25_accept_answers_ready`, `C11_reader_closed_at_destroy_refuted`, `C11_reader_closed_at_destroy_partial`, `C11_reader_left_open_only_after_refusal`, `C16_empty_payload_refuted`, `C16_long_payload_refuted`, `C16_payloads_read_back_partial`, `C16_read_back_exactly`, `C17_file_round_trip`, `C17_file_round_trip_implicit_open`, `C17_file_start_content_type`, `C17_file_contents`, `C18_reader_meaning`, `C19_truncation`, `C19_truncated_file`, `C19_cut_looks_complete_refuted`, `C20_oversize_reported_refuted`, `C20_reads_bounded_partial`, `C20_buffer_bounded_partial`, `C20_nothing_after_oversize_partial`, `C20_unset_exactly`, `C21_no_undefined_behaviour`, `C21_zero_length_array_only_on_announced_zero`, `C22_life_cycle`, `C22_end_is_final`, `C23_open_implies_accepted`, `C23_data_implies_accepted`, `C23_open_iff_accepted`, `C24_reader_null_control_refuted`, `C24_reader_wrong_type_refuted`, `C24_reader_refused_frame_refuted`, `C24_reader_control_truth_partial`, `C24_reader_stop_truth`
* `Prop_Socket.v`: `C28_read_success_is_exact`, `C28_read_failure_has_a_cause`, `C28_read_completes`, `C28_chunking_is_irrelevant`, `C29_success_is_exact_partial`, `C29_whole_send_succeeds_partial`, `C29_single_buffer_in_order_partial`, `C29_no_duplicates_refuted`, `C29_memory_safe_refuted`, `C29_short_send_never_completes`, `C29_success_exactly`, `C56_descriptor_accounting`, `C56_results`, `C56_destroy_releases_descriptor_refuted`, `C56_after_destroy`
* `Prop_Startup.v`: `C70_starts_exactly`, `C70_usage_error_changes_nothing`, `C70_only_named_paths`, `C70_running`, `C70_failed_start_keeps_output_refuted`, `C70_long_type_empties_output`, `C70_failed_start_partial`, `C70_removes_only_sockets_refuted`, `C70_same_path`
* `Prop_StdinAny.v`: `C88_any`, `C88_any_covers`
* `Prop_StdinNames.v`: `C88_once`, `C88_twice_exactly`, `C88_twice_refuted`
* `Prop_System.v`: `C65_queues_refine_lists`, `C65_submissions`, `C65_becomes_visible`, `C65_order`, `C65_released_exactly_once`, `C65_shutdown_terminates`, `C65_lossless`, `C66_submit_to_read`
* `Prop_SystemMutex.v`: `C67_queues_refine_lists`, `C67_submissions`, `C67_order`, `C67_released_exactly_once`, `C67_shutdown_terminates`, `C67_lossless`, `C66_submit_to_read_shared`
* `Prop_Thread.v`: `C78_released`, `C78_accounted`, `C78_clocks`, `C78_failure_refuted`, `C78_same_condition`
* `Prop_ThreadFd.v`: `C103_one_descriptor`, `C103_none_left_partial`, `C103_any_client`, `C103_same_connection`, `C103_refuted`
* `Prop_ThreadOpen.v`: `C102_open_while_open`, `C102_one_way_anew_partial`, `C102_any_client`, `C102_refuted`
* `Prop_ThreadUse.v`: `C98_legal`, `C98_left_open_only_in_handshake`, `C98_one_way_closed`, `C98_write_size`
* `Prop_Tools.v`: `C50_dump_to_file`, `C50_dump_is_idempotent`, `C50_dump_any_output`, `C50_dump_prints`, `C50_dump_refuses_other_files`, `C50_every_file_is_classified`, `C50_replay_to_reader`, `C50_replay_any_connection`, `C51_truncation_goes_unnoticed`, `C51_success_means_stop_refuted`, `C51_success_partial`, `C51_success_exactly`, `C62_replay_status_refuted`, `C62_replay_status_partial`, `C62_replay_exactly`, `C63_oversize_is_undefined`, `C63_dump_is_defined_refuted`, `C63_dump_is_defined_partial`, `C63_dump_is_defined_exactly`
* `Prop_ToolsMem.v`: `C91_dump`, `C91_replay`
* `Prop_Usage.v`: `C99_long_shows`, `C99_programs`, `C99_long_fits`, `C99_long_fits_refuted`, `C99_short_fits`, `C99_short_shows_partial`, `C99_short_shows_refuted`
* `Prop_UsageChoice.v`: `C100_usage`, `C100_error`, `C100_named`, `C100_version`, `C100_exits`, `C100_fits`, `C100_help_never`, `C100_help_refuted`
* `Prop_Variables.v`: `C101_shows`, `C101_safe`, `C101_tells_partial`, `C101_tells_refuted`
* `Prop_Wakeup.v`: `C69_wakes_at_threshold_refuted`, `C69_signal_level`, `C69_large_threshold_never_wakes`, `C69_lost_wakeup_refuted`, `C69_asleep_partial`, `C69_shutdown_sleeps_at_most_once`, `C69_shutdown_prompt_refuted`, `C69_destroy_wakes`, `C69_shutdown_ends`, `C69_done_means_drained`
* `Prop_Writer.v`: `C10_writer_legal_transport_use`, `C11_writer_closed_at_destroy_refuted`, `C11_writer_closed_at_destroy_partial`, `C11_writer_left_open_only_in_handshake`, `C11_one_way_writer_closed_at_destroy`, `C12_unidirectional_format`, `C13_batching_irrelevant`, `C13_writev_emits_frames`, `C13_write_size_bound`, `C14_crash_prefix`, `C15_results_explained_by_delivery`, `C15_success_means_no_failure`, `C15_silent_after_close`, `C24_writer_null_control_refuted`, `C24_writer_wrong_type_refuted`, `C24_writer_control_truth_partial`
