# Formal model of com-diag-diminuto

Source: `/repo` (coverclock/com-diag-diminuto at the pinned commit), read as text.
Everything here is Rocq/Coq 8.16.1 under `rocq/theories`, logical name `Verif`.

## 1. Method

* Each C module gets a `<Module>Model.v` file holding only definitions. Every
  definition cites the file and lines it models and states its simplifications.
* `<Module>Spec.v` holds a small specification, written without the model's
  helpers. `<Module>Proofs.v` holds lemmas. `<Module>Props.v` holds the property
  theorems, each closed by `exact`, each followed by `Print Assumptions` and by
  an `Example` showing a non-trivial instance of its hypotheses.
* C integers are `Z`. Unsigned wrap-around is explicit (`u8`, `u16`, `u32`,
  `u64` in `CInt.v`). Signed overflow, out of bounds access, division by zero
  and other undefined behaviour are distinct outcomes (`None` or a dedicated
  constructor), never silently totalised.
* Memory is modelled as maps from node identifiers or offsets. An access outside
  an object is an explicit error outcome.
* Concurrency is a transition relation whose steps are the code's critical
  sections or system calls; theorems quantify over all reachable states.
* System calls, clocks and allocators are oracles (arguments), so theorems hold
  for every behaviour of the environment permitted by the stated assumption.
* Where the English property is false of the code, the file proves
  `..._refuted` with a concrete witness and section 4 records the finding; the
  strongest true restriction is proved next to it.

## 2. Plan per property

| Id | Model | Proof plan |
|----|-------|------------|
| C01 | FramerModel: `machine` (token step), `emit`, `writer` as pure functions | induction over payload; symbolic execution of header and trailer |
| C02 | same | every emitted octet is either escaped or not special; list induction |
| C03 | machine with explicit store offsets and `Oob` outcome | invariant on state: here+limit = buffer size |
| C04 | machine with ghost-free invariant relating running sums to stored octets | invariant over token streams |
| C05 | machine | from any live state FLAG leads to FLAG state; compose with C01 |
| C06 | machine | XON/XOFF steps only change the throttle; induction over merged streams |
| C07 | sequence arithmetic in u16 | modular arithmetic |
| C08 | KermitModel: 256 entry table | table checked against bit-serial by computation on all 256 entries, lifted by linearity; list induction |
| C09 | same | linearity and injectivity of the bit step on 16 bits |
| C10 | crc2chars, chars2crc | exhaustive computation lifted with forallb_forall and arithmetic |
| C11 | FletcherModel | list induction |
| C12 | HammingModel | exhaustive computation over all codewords and error masks (finite domain, complete) |
| C13 | RingModel | refinement to a queue of slot numbers; invariant over request lists |
| C14, C15 | ListModel: heap of nodes with root/next/prev | separation-free invariant "heap represents a set of cycles"; refinement to sequences |
| C16, C17 | TreeModel: node heap with parent/left/right/colour as in the C, or a functional zipper with proved correspondence | refinement to functional red-black trees |
| C18, C19 | ThrottleModel, ShaperModel on u64 | potential argument over event lists |
| C20-C22 | ReaderWriterModel: shared state + thread phases, steps are critical sections | inductive invariant over all reachable states |
| C23, C24 | EscapeModel | list induction |
| C25 | CueModel | induction over sample lists |
| C26 | FibonacciModel on u32 | induction over steps |
| C27, C28 | FrequencyModel, TimeModel with C truncating division | lia with division equations |
| C29 | LogicalClockModel | invariant over operation lists |
| C30, C31 | BufferModel: size classes, free lists, underlying allocator oracle | invariant over histories |
| C32 | WellModel, PoolModel | invariant over histories |
| C33, C34 | MuxModel: sets as bit masks, bounds, cursor, pselect(2) an argument | refinement of a registry over all histories; the search is a path around the cycle; no starvation by induction over interleavings |
| C35 | EndpointModel: the parser as a state machine on a buffer with offsets, then the resolution of what it found, over an arbitrary resolver | the parser agrees with one that needs no buffer, and that with a grammar (`spells`) in both directions; then case analysis of the resolution against `means` |
| C36 | DiskModel (one directory), LockModel: any number of threads, each a sequence of system calls that may fail, any interleaving, crashes | inductive invariants: who owns the lock; what is in the lock file, in temporary files and in the hands of readers; what other files hold |
| C37 | ObservationModel on DiskModel: any number of writers and readers of one target, buffered streams that pass on writes in parts, system calls that may fail, crashes | refinement of a target that changes all at once; inductive invariants for other files and residue |
| C38 | ModulatorModel | periodicity by induction on ticks |
| C39 | ControllerModel on int16/int32 | case analysis, invariant over samples |
| C40 | Ipc6Model | byte arithmetic |
| C41 | FdModel with a result oracle | induction over oracle results |
| C42 | SignalModel | invariant over interleavings |
| C43, C44 | CommandModel, StringModel | list induction |
| C45 | MemoryModel | arithmetic |
| C46 | BitsModel | Z.testbit reasoning |
| C47 | EscapeModel (dump) | list induction |
| C48 | ThrottleModel (shaper) | invariant over event lists; not proved: anything about diminuto_throttle_cleared, of which a wrong version survives (seeded/LOG.jsonl) |
| C49 | ListModel (audit) | soundness and completeness of the audit against the specification |
| C50 | IpModel (lists, comparison, classes) | list induction, byte arithmetic |
| C51 | EndpointModel: endpoint2string over an arbitrary printer of addresses | lengths; composition with C35 by way of `means` |
| C52 | PollModel: the array with what was never written in it, on MuxModel; ppoll an argument | invariant: the array is laid out for the registry unless marked stale; rounds by way of those of C34 |
| C53 | ScattergatherModel: the nodes of ListModel and buffers by address; allocator and system calls are arguments | reference of a pool and sequences of segments; the relation preserved by each operation, induction over the history |
| C54 | ThreadModel: one object, its thread, any number of callers; steps are critical sections, system calls and accesses outside of the mutex | refinement of a thread as its users see it (`observe`), by an inductive invariant over all interleavings |
| C55 | TimerModel: one timer object, the kernel's timer, a thread for each expiration, any number of callers; steps are critical sections and system calls | refinement of a timer as its users see it (`observe`), by an inductive invariant over all interleavings; a second invariant and a constructed schedule for the end of a stop |
| C56 | A file tree of names, kinds and answers of lstat/opendir; the walker with its path buffer | The walk equals a fold of the function over the listing of the tree, by induction on the tree; a path that would fit exactly is refused (`C56_fit_refuted`) |
| C57 | strtok_r, the buffer, mkdir(2) as an argument | The loop equals making the list of directories one by one; with a small file system it succeeds unless a file is in the way; `C57_directory_refuted` |
| C58 | realpath(3) as an argument; buffers as lists | Case analysis on the last slash; `C58_root_refuted`, `C58_dot_refuted`, `C58_expand_refuted` |
| C59 | strtok_r, stat(2) as an argument | Induction on the rest of the list; `C59_long_refuted` |
| C60 | strtoull(3) and strtoll(3) with base zero, octet by octet | A grammar of numerals; reading is sound and complete for it; `C60_empty_refuted`, `C60_range_refuted` |
| C61 | The mask as a number; variable and file as strings | From C60; `C61_empty_refuted`, `C61_wide_refuted`, `C61_comment_refuted` |
| C62 | The buffer's content; each turn of the loop given the answer of write(2) | The text equals a line; induction on the answers; `C62_interrupted_refuted` |
| C63 | Threads that lock, write part by part, and unlock | An invariant with the history of records, by induction on the events |
| C64 | The state machine of diminuto_phex_emit, and the phex program's loop | Tokens by induction on the input; the line as an invariant of the state; round trip through EscapeModel.collapse |
| C65 | The nested loops of diminuto_dump_generic with 64-bit addresses | Each loop computes the cells of a range of addresses; alignment by bit arithmetic |
| C66 | The meter as a record, doubles as an arbitrary order | Invariants over histories of calls against sums and maxima |
| C67 | Programs over an arbitrary kernel with a trace of the system calls | A lemma on ladders of steps; names through the byte order theorems of C37; descriptors by induction on the trace |
| C68 | The loop over an arbitrary list of answers of nanosleep(2), with a trace | Induction on the answers; the sums of the times asleep telescope |
| C69 | The fates of the caller and its descendants as a function of the answers of the system | Case analysis, induction on the interruptions |
| C70 | The table of descriptors and the three streams; a freed FILE is undefined behaviour | Induction on the closing loop and on the search for the lowest descriptor |
| C71 | The four words of flags as integers, the macros with their numbers | Bit by bit with Z.testbit, against a reading of the settings in the specification |
| C72 | The system calls with arbitrary answers, as a list | Modular arithmetic; case analysis |
| C73 | The two passes over the answer of getifaddrs(3), with offsets into the block | Induction over the list; the sizes bound what is stored |
| C74 | The functions, with the system calls made; strtoull(3) as in Number* | Round trip of digits; arithmetic; bits |
| C75 | The loops, on octets, for either byte order | Induction; sums modulo 65535 |
| C76 | The datagrams as octets; recvfrom(2) is arbitrary | Layout of the buffer; C75 |
| C77 | Finding, parsing, opening, reading and writing lines; devices and the answers of the kernel are arbitrary | Induction over devices and lines; C60 for numbers; bits |
| C78 | The attempts to write a file of a pin, with arbitrary answers at each; the calls are recorded | Induction over the tries; the names as text |
| C79 | Threads with a mutex as a small-step system; each action on the bus has an arbitrary answer | Invariant over all schedules: finished transactions and one that goes on |
| C80 | Threads with a semaphore as a small-step system; memory is octets | Invariant over all schedules: memory is that after the calls that returned, and the effect of one that is about to |
| C81 | The reservations and mappings of the kernel as lists | Arithmetic of pages; cases |
| C82 | The table and loops of the checksum and the walk over the environment; specification is a shift register fed bit by bit | Table entries compared with eight shifts (256 cases); linearity and injectivity of the register over any length; induction over the environment |
| C83 | The write, read and compare loops with the answers of the device as functions of position and size | Invariants over the loops with any answers (soundness), and with a device that takes at least a sector (completeness); termination by progress; independence of the answers where it fails |
| C84 | The loop with what is read, what each write returns and when the clock is read as lists; the shaper of C18 | What is emitted is what a client of C18 emits, hence its bound; induction over the reads; C11 for the checksum |
| C85 | Standard input as a list, fgets(3) and strlen(3) as functions | Induction over the input |
| C86 | One thread: an evaluator for code made of work, mask changes, break, return, cancellation and the three kinds of section, begun or tried; leaving a section with a cleanup handler by return is undefined behaviour | Induction on the code: locks and mask are restored; the trace of work shows what was held and blocked |
| C87 | Any number of threads, each with jobs to apply to a shared value in a section by mutex or spin lock; lock, read, write and unlock are separate steps, and a thread can be cancelled at any of them | Invariant over schedules relating the state to a serial history; progress by running the owner out and the waiter in; counters as an instance |
| C88 | The switch of diminuto_testify over octets, with strtol as in C60 and the 32 bit store | By cases on the words of the header; numbers by the numerals of C60 |
| C89 | Conversions, promotions, complement and shift over types of any width; xor on a memory; nested tests over the counters, and the exit status | Modular arithmetic; induction on nested tests |
| C90 | dlopen and dlclose with reference counts, the flags, and the loop that unloads by force | Induction on the history against counts of loads and unloads |
| C91 | the framer model of C01 to C07, with its abort sequence and reader | invariant of the machine; case analysis of the abort over all states; no frame completes without a newline; an oversize header compared with the same header at a receiver of 65535 octets, step by step |
| C92 | bin/dec.c with strtoull(3) of C60, printf(3) of unsigned numbers and fgets(3) | the printing loop against the digits of NumberSpec; octet reversal by arithmetic; induction over arguments and lines; each printed line is again a numeral |
| C93 | bin/ipcalc.c; inet_aton(3) is an argument | bit by bit over the 32 bits, then by octet |
| C94 | bin/memtool.c, memory of octets, a record of the accesses; whether mapping succeeds is an argument | simulation of a session relation by induction; each word by its bits; sessions exist for all plans |
| C95 | diminuto_escape_collapse on one buffer with two positions; bin/collapse.c | invariant: the write position is not past the read position and what is unread is unchanged; then C23 |
| C96 | bin/dump.c over the model of diminuto_dump_generic | each block gives the line that the whole would give at that address (C65), then a reader by columns gets the octets back |
| C97 | diminuto_environment.c as threads with five places, over the model of the reader writer lock; overlapping C library calls of which one modifies are undefined behaviour | invariant that ties each thread's place to the lock's trace, then C20 and C21 |
| C98 | bin/renametool.c over the directory of Disk*; one system call per run | case analysis of the arguments; names are permuted, by induction over the runs |
| C99 | bin/mmdrivertool.c over any driver with the specification proved in C80; uninitialized octets are arguments | induction over the options; words and octets bit by bit |
| C100 | bin/gpiotool.c over the pins of PinModel, each call to the kernel answered arbitrarily | case analysis over C60 and C78; the exit status, the output and the calls in order |
| C101 | bin/elapsedsleep.c, elapsedtime.c, epochtime.c, zulu.c and juliet.c over TimeModel and NumberModel | case analysis over C27, C28 and C60; induction over digits for what is printed |
| C102 | the input half of bin/framertool.c | induction over the input, with the invariant that the buffer holds the line so far, cut |
| C103 | src/diminuto_realtime.c, with fscanf(3) of %d as a function on octets | scanning is proved equal to a grammar of white space, sign and digits; case analysis over the answers |
| C102 (continued) | the output half of bin/framertool.c over the reader and writer of FramerModel | induction over the datagrams with C01 for each; end to end with the input half |

Not expressible here: real-time behaviour (timers firing on time), memory
ordering below the level of mutexes and barriers, hardware register access,
`/proc` and `/sys` parsing, network transport behaviour.

## 3. Trusted base

* Coq 8.16.1's kernel, including its virtual machine (`vm_compute` is used for
  finite tables and for examples).
* `Print Assumptions` follows every property theorem. Each prints "Closed under
  the global context": no axiom is used, neither of the standard library nor of
  this development.
* That the models say what the C says. Each definition cites the lines it was
  read from; nothing was extracted from or run against the C.
* Assumptions about the platform, all of them visible in the models: two's
  complement, 8 bit `char`, 32 bit `int`, 64 bit pointers and `size_t` (LP64),
  narrowing conversions to signed types wrap (as GCC does), and the oracles
  named below behave as their arguments say.

### What is modelled

| Files of the model | Source | Not modelled there |
|---|---|---|
| Checksum* | diminuto_kermit.c, diminuto_fletcher.c, diminuto_parity.c, diminuto_checksum sources cited in the files | |
| Framer* | diminuto_framer.c, diminuto_framer.h | reading from and writing to a FILE other than octet by octet; log output |
| Hamming* | diminuto_hamming.h | |
| Ring* | diminuto_ring.h | |
| Cue* | diminuto_cue.c | |
| Fibonacci* | diminuto_fibonacci.c | |
| Bits* | diminuto_bitwise.h, diminuto_bits.h as cited | |
| Memory* | diminuto_memory.c | the addresses a platform uses |
| String*, Escape* | diminuto_command.c, diminuto_string.c, diminuto_escape.c, diminuto_dump.c as cited | locale |
| Time* | diminuto_frequency.c, diminuto_time.c, diminuto_delta.h as cited | the clocks (arguments) |
| Throttle* | diminuto_throttle.c, diminuto_shaper.c | log output |
| Control* | diminuto_modulator.c, diminuto_controller.c | the timer thread's real-time behaviour |
| Fd* | diminuto_fd.c, diminuto_interrupter.c and its siblings as cited | the kernel (an oracle of results) |
| List* | diminuto_list.c, diminuto_list.h | |
| Tree* | diminuto_tree.c, diminuto_tree.h, diminuto_store.h, diminuto_comparator.c | log output |
| Ip* | diminuto_ipc4.c, diminuto_ipc6.c | resolvers and sockets |
| Buffer* | diminuto_buffer.c | the underlying malloc (an oracle) |
| Well*, Pool* | diminuto_well.c, diminuto_pool.c and their headers | errno; log output; the heap (an oracle) |
| Mux* | diminuto_mux.c and its two headers | conversion of the timeout; errno; log output; pselect(2) (an argument) |
| Observation* | diminuto_observation.c | as for Lock*; file modes; the clock as a source of names; more than one target; *tempp uninitialised |
| Endpoint* | diminuto_ipc_endpoint.c; diminuto_ipcl_path2string | name, service and path resolution, and the printing of addresses, are arguments; log output; errno |
| Poll* | diminuto_poll.c, diminuto_poll.h | ppoll(2) and realloc are arguments; conversion of the timeout, dumps, diminuto_poll_fini, log output, errno |
| Scattergather* | diminuto_scattergather.c, diminuto_scattergather.h | the address arguments of the datagram variants, alloca(3) failing, the mutex (operations are taken one after another), reuse of the address of a freed buffer, dumps, log output |
| Thread* | diminuto_thread.c, diminuto_thread.h | scheduling attributes, the thread-specific key and the object of the main thread, failing mutexes and conditions, errno, cancellation before the function is called, the clock; unlocked reads of the state are taken as atomic |
| Timer* | diminuto_timer.c, diminuto_timer.h | timers that send a signal (but for diminuto_timer_setitimer), scheduling attributes, failing mutexes, conditions and system calls, the times that start and stop return, the value and the error stored in the object; the unlocked assignments of start are taken as one step |
| Walk* | src/diminuto_fs.c (walk, walker) | The log; the kernel's directories are a tree that does not change but for entries that vanish |
| Fs* | src/diminuto_fs.c (mkdir_p, expand, canonicalize, mode2type), src/diminuto_path.c | The log, errno other than that of mkdir(2); realpath(3), stat(2), mkdir(2), getenv(3) are arguments |
| Number* | src/diminuto_number.c | errno; locales; binary numbers of C23 |
| Log* | src/diminuto_log.c (priority2mask, setmask, importmask, vwrite, vlog), diminuto_log.h (isenabled) | The content of the header, syslog(3), diminuto_log_stream, errno, the names of file and variable; the mutex is atomic |
| Phex* | src/diminuto_phex.c, the loop of bin/phex.c | The stream is unbounded and does not fail |
| Dump* | src/diminuto_dump.c (diminuto_dump_generic), diminuto_dump_general | What printf prints for the address (a parameter), failures of the stream |
| Meter* | src/diminuto_meter.c | Floating point: doubles are only compared, quotients are a parameter; the average |
| Socket* | src/diminuto_ipc4.c, _ipc6.c, _ipcl.c (source, provider, consumer, peer), src/diminuto_ipc.c (close, set_interface) | The kernel and the injector are arbitrary; accept, the near and far ends (Endpoint*, Ip*), the options of src/diminuto_ipc.c |
| Delay* | src/diminuto_delay.c (delay) | The answers of nanosleep(2) are a list; yield is not modelled |
| Daemon* | src/diminuto_daemon.c, diminuto_fd_count | The answers of the system are arbitrary; the test modes, session, signals, mask, directory and system log are not modelled |
| Serial* | src/diminuto_serial.c (set, raw) | The numbers of the flags are those of Linux; tcflush(3), unbuffered, wait, status and available are not modelled |
| Map* | src/diminuto_map.c | The answers of the system are arbitrary; the contents are not modelled |
| Netif* | src/diminuto_ipc.c, _ipc4.c, _ipc6.c: lists | malloc(3) works; getifaddrs(3), inet_aton(3) and gethostbyname(3) are arbitrary; getaddrinfo(3) (diminuto_ipc6_addresses) is not modelled |
| Option* | src/diminuto_ipc.c: ports and options; diminuto_ipc.h wrappers | getservbyname(3), setsockopt(2) and fcntl(2) are arbitrary |
| Ping* | src/diminuto_ping4.c, src/diminuto_ping6.c | The octets of the buffer beyond what was received are zero; opening sockets is not modelled |
| Line* | src/diminuto_line.c | Canonical paths are an oracle; the structures of the kernel are reduced to the fields used; diminuto_line_test |
| Pin* | src/diminuto_pin.c | Answers of the file system are oracles; the root is at most 4000 octets except in C78_length_refuted |
| I2c* | src/diminuto_i2c.c | A system call that fails returns -1; diminuto_i2c_close; devices are specified, not modelled |
| Driver* | drv/diminuto_mmdriver.c, drv/diminuto_kernel_datum.c, drv/diminuto_kernel_map.c, inc/com/diag/diminuto/diminuto_datum.h | Values are octets; the counters (`++errors` is outside the semaphore when a wait is interrupted) and the proc file; null arguments of diminuto_kernel_map |
| Ubenv* | bin/getubenv.c | The mapping (C72) is an argument; what is written to standard error; the size of the environment is any |
| Wipe* | bin/wipe.c:198-374 | Options; the clock, progress and messages; opening, closing and aligning memory are taken to succeed; sizes are in words of eight octets; the totals do not wrap |
| Shape* | bin/shaper.c:224-371, bin/shaperbuffered.c:117-200, 409-493 | Scanning of options; signals; the rates measured; the jitter is given in ticks; a write of the buffered one that fails writes nothing |
| Section* | inc/…/diminuto_criticalsection.h, diminuto_serializedsection.h, diminuto_uninterruptiblesection.h; src/diminuto_criticalsection.c, src/diminuto_uninterruptiblesection.c | Asynchronous cancellation; recursive and error checking mutexes; the coherent sections, which are barriers only |
| Apply* | src/diminuto_atomicapply.c; src/diminuto_unittest.c:34-54; the sections of several threads | Weak memory; functions with more than one read and write |
| Testify* | src/diminuto_testify.c, inc/…/diminuto_testify.h | Nothing else |
| Macro* | inc/…/diminuto_minmaxof.h, diminuto_widthof.h, diminuto_swap.h, diminuto_unittest.h | PANIC, ASSERT and what is logged; overflow of the counters |
| Module* | src/diminuto_module.c | Platforms other than Linux with glibc; constructors and destructors |
| Framerend* | (uses FramerModel) what C91 says is undisturbed | |
| Dec* | bin/dec.c | The host is little endian; standard output does not fail; standard error |
| Ipcalc* | bin/ipcalc.c | inet_aton(3) is an argument; the text of the usage message; little endian |
| Memtool* | bin/memtool.c | getopt(3); devices that change by themselves; pages around the region count as outside; debug output and core dumps; little endian |
| Collapse* | src/diminuto_escape.c:17-144 on one buffer, bin/collapse.c | Messages; how much each fwrite(3) takes is an argument |
| Dumper* | bin/dump.c:43-118 | getopt(3), messages, the interleaving of the two output streams |
| Environment* | src/diminuto_environment.c:18-60 and the macros of diminuto_environment.h and diminuto_readerwriter.h:338-393 | errno, cancelling, what the C library does (an argument) |
| Rename* | bin/renametool.c:30-75 | messages; other reasons of the kernel to refuse are a boolean; names are numbers, all in one directory |
| Mmtool* | bin/mmdrivertool.c:41-281 | getopt(3); -U (one device); messages; the time that passes in -u; other users of the memory between two options |
| Gpio* | bin/gpiotool.c | the kernel (an oracle of results), messages |
| Clocktool* | bin/elapsedsleep.c, bin/elapsedtime.c, bin/epochtime.c, bin/zulu.c, bin/juliet.c | clock_gettime(2), gmtime_r(3) and localtime_r(3) (oracles), how the offset of the time zone is found, messages |
| Framertool* | bin/framertool.c:379-412 | options, the multiplexor, messages; the output half is in Framerlink*; diminuto_framer_writer is in Framer* and is asked here only whether it works |
| Framerlink* | bin/framertool.c:414-475 | options, the multiplexor, messages; the input does not end before the device |
| Realtime* | src/diminuto_realtime.c:21-106 | read errors after the first octet, messages; fopen(3) and fclose(3) are oracles |
| Lock*, Disk* | diminuto_lock.c (diminuto_renameat2.c as the system call) | the file system is DiskModel: one directory, no loss of power; more than one lock file; errno; log output |
| Readerwriter* | diminuto_readerwriter.c, diminuto_readerwriter.h | failures of mutexes and broadcasts; output for debugging |

Everything else in `/repo` is not modelled.

## 4. Findings

Where a plausible English claim is false of the code, a theorem whose name ends
in `_refuted` proves it with a witness.

* Framer: a Fletcher-16 checksum does not tell octets 0x00 from 0xff.
  `C05_resync_refuted`: a frame can be lost after line noise.
* Fibonacci: `C26_lowered_limit_refuted`, `C26_inclusive_limit_refuted`.
* Memory: the power of two above a size greater than 2^63 is zero.
* Escape: a NUL followed by an octal digit, and runs of backslashes, do not
  round trip as one might think.
* Frequency: `C27_other_frequencies_refuted`. Time: `C28_most_negative_refuted`.
* Modulator: `C38_exact_refuted`. Controller: `C39_default_windup_refuted`,
  `C39_saturation_refuted`.
* Signals: `C42_other_thread_refuted`.
* Lists: `C15_enqueue_tail_refuted`, `C15_push_root_refuted`,
  `C49_all_roots_refuted`; replacing a node by itself removes it.
* Addresses: `C50_tunnels_refuted`, `C50_compare_order_refuted`; 127.0.0.0 is no
  loopback address; a list of addresses that contains the unspecified address
  looks shorter than it is.
* Buffers: `C31_failure_refuted`, `C30_calloc_refuted`, `C30_overflow_refuted`.
* Trees: `C16_audit_complete_refuted` (the audit misses an unbalanced chain),
  `C16_orphan_position_refuted` (inserting beside a node that is in no tree is
  undefined), `C17_compare_pointers_refuted` (differences are truncated to int).
* Reader writer locks: `C21_cancel_refuted` (the clean up handler of a cancelled
  waiter locks a mutex its thread already holds), `C21_cancel_granted_refuted`
  (cancelling a thread that has just been given the lock leaves it taken),
  `C21_readers_refuted` (when the writer in front gives up, readers behind it
  keep waiting although only readers have the lock),
  `C22_priority_order_refuted` (waiters with priority are last in, first out).
* Wells: `C32_well_double_free_refuted` (an object returned twice is handed out
  to two users), `C32_well_overflow_refuted`, `C32_well_size_overflow_refuted`
  (sizes wrap round), `C32_well_alignment_refuted` (an alignment above the page
  size is not honoured), `C32_well_size_zero_refuted`.
* Pools: `C32_pool_size_refuted` (the size of an object wraps round).
* **Multiplexer.** pselect(2) does not tell a descriptor registered for reading
  from one registered for accepting, nor urgent from interrupt.
  `diminuto_mux_set_ready` takes the ready set as it comes: if a descriptor
  that is ready lies between two of the set searched and is not itself
  registered there, it does `FD_CLR(-1, ...)`, which is outside the set
  (`C34_accept_refuted`). `C34_round`, `C34_resumes` and `C34_defined` assume
  that this does not happen (`apart`, `disciplined`); `C34_no_starvation` only
  that the history ran.
* Unregistering a descriptor for reading, that is also registered for accepting,
  stops the waits for it (`C33_shared_refuted`); `r_run` leaves such programs out.
* After a wait that fails or is interrupted the set of those ready to be written
  is the set asked for, so a call may return a descriptor that was never ready
  (`C34_interrupted_write_refuted`).
* The header says that `diminuto_mux_close` does not close a descriptor that is
  not registered; it does (`C33_close_refuted`). Unregistering returns the
  descriptor and not the 0 that is documented.
* **Lock file.** diminuto_lock_f unlinks the name of its temporary file after it
  has renamed it (`src/diminuto_lock.c:106-108`). In between, mkstemp(3) of
  another process may choose this name again: its file is then removed under
  it, and a third process that is given the same name may have its half written
  file made the lock file by the second (`C36_reuse_refuted`). `C36_exclusion`
  does not depend on this; the theorems about contents assume that mkstemp(3) is
  not so unlucky (`lucky`).
* If fclose(3) fails in diminuto_lock_f the stream is closed again, which is
  undefined (`C36_fclose_refuted`).
* If mkstemp(3) fails because all names it tried exist, the file with the last
  of these names is removed (`C36_mkstemp_refuted`).
* Nothing in diminuto_lock.c or diminuto_observation.c calls fsync(2): what is
  proved is about crashes of processes and not about the loss of power.
* **Endpoint.** A string of 4096 characters or more is not parsed, yet 0 is
  returned, with nothing set (`C35_long_refuted`).
  A port beyond the range of an int is undefined (`C35_port_undefined_refuted`);
  any other beyond 65535 is accepted modulo 65536 (`C35_port_wraps_refuted`).
  An address that does not resolve, such as "999.1", is accepted as the wildcard
  (`C35_bad_address_refuted`).
  Characters that begin nothing are skipped at the beginning of a string, not
  only blanks (`C35_prefix_refuted`).
  Of two addresses the type is IPv4 unless IPv6 is preferred; the header says
  that it is IPv6 (`C35_type_refuted`).
  What is printed for two addresses, for different ports, or for the wildcard
  without a port cannot be parsed, or not as the same (`C51_round_trip_refuted`;
  the header says that it is for display).
* **Poll.** diminuto_poll_close does not mark the array stale, as the other calls
  that change what is registered do (`inc/com/diag/diminuto/diminuto_poll.h:331-333`).
  The next wait asks about the closed descriptor and takes the answer for that
  of another (`C52_close_refuted`).
  A hang-up or an error alone is reported by the wait but for no purpose
  (`C52_hangup_refuted`).
  The result of diminuto_heap_realloc is not checked (`C52_memory_refuted`).
  With nothing registered a wait without timeout returns at once
  (`C52_forever_refuted`).
  A descriptor to accept between two to read is undefined as for the multiplexer
  (`C52_accept_refuted`).
* **Observation.** A checkpoint is a hard link to the temporary file and not a
  copy: what is written after it appears in it too (`C37_checkpoint_refuted`).
* diminuto_observation_commit returns the stream when it fails, and so does
  diminuto_observation_discard, but after fclose(3) that stream is gone: to call
  either again is undefined (`C37_retry_refuted`).
* diminuto_observation_create leaves its temporary file behind if fchmod(2) or
  fdopen(3) fails (`C37_create_residue_refuted`); it also compares the caller's
  `*tempp`, which the header does not ask to be initialised
  (`src/diminuto_observation.c:92`).
* commit and checkpoint ask for a temporary name longer than 8 characters, so an
  observation of a path of one character can be created but never committed
  (`C37_short_path_refuted`).
* **Scatter/gather.** Sending or receiving a record with no segments, or more than
  1024, returns 0 and not a negative number as documented, so a receive looks like
  the end of the file (`C53_send_error_refuted`).
  Appending the last segment of a record to it again removes it
  (`C53_append_again_refuted`); inserting a segment that is on another record
  inserts that whole record and its root, and a later write follows a null pointer
  (`C53_insert_elsewhere_refuted`); inserting one elsewhere on its own record does
  nothing (`C53_insert_same_refuted`).
  A length beyond the field is accepted and written (`C53_length_refuted`), and the
  size of a segment of nearly 2^64 octets wraps (`C53_allocate_wraps_refuted`).
* **Threads.** If two callers join at the same time, either the second sleeps for
  ever because it waits for EXITING while the state is already JOINED
  (`C54_second_joiner_refuted`), or both call pthread_join(3) on the same thread
  (`C54_join_twice_refuted`).
  The count of notifications is an `int32_t` compared with the largest
  `unsigned int`: one more than 2^31-1 is signed overflow, and not saturation as
  documented (`C54_count_refuted`).
  A thread that happens to get the handle of one that was joined before is told
  that it cannot join it (`C54_handle_refuted`).
  The deadline of a join does not hold once the thread is EXITING, which
  diminuto_thread_exit sets before the cleanup handlers run
  (`C54_deadline_refuted`).
* **Timers.** If a timer that is not periodic is started again by its own function, it
  is IDLE when the function returns, so that its next expiration calls nothing
  (`C55_restart_refuted`). A stop after a stop that timed out succeeds at once, even
  while the function runs (`C55_stop_again_refuted`). If a periodic timer expires
  while its function runs, calls overlap, and a stop succeeds when one of them is
  still running (`C55_overlap_refuted`). A periodic timer may expire after the wait
  of a stop ended but before the kernel's timer is disarmed; the thread then uses the
  object although the stop has succeeded, so to finalize it is not safe
  (`C55_fini_refuted`). The function may not usefully stop its own one-shot timer,
  contrary to the comment in proxy: that stop always times out
  (`C55_stop_inside_refuted`). So does the stop of a timer started with a time of zero
  (`C55_zero_refuted`). diminuto_timer_setitimer ignores its second argument but for
  the first call (`C55_setitimer_refuted`). A stop waits for less than the time if that
  is 2^63 or more (`C55_window_refuted`). (Not modelled: a timer that sends a signal
  stays in state ARM after it was stopped.)
- **diminuto_fs_walk** asks for room for a slash even where none is appended, so that a path that would fit is refused with ENAMETOOLONG (`C56_fit_refuted`).
- **diminuto_fs_mkdir_p** takes EEXIST for success, also when what exists is a file: it returns 0 and there is no directory (`C57_directory_refuted`).
- **diminuto_fs_canonicalize** reads `prefix[-1]` for "/", "/.", "/.." and every "/name" (`C58_root_refuted`). "." and ".." become "<cwd>/." and "<cwd>/..", which are not canonical (`C58_dot_refuted`).
- **diminuto_fs_expand** truncates silently and returns 0 (`C58_expand_refuted`).
- **diminuto_fs_mode2type** returns '9' for type 9, while the enumerator DIMINUTO_FS_TYPE_9 of the header is '0', as is that of type 0.
- **diminuto_path_scan** stops at a directory whose candidate is too long, and so hides those after it (`C59_long_refuted`).
- **diminuto_number_unsigned / _signed** take an empty string for zero, entirely read (`C60_empty_refuted`); the unsigned one takes "-1" for 2^64-1, and numbers too big for 2^64-1, entirely read (`C60_range_refuted`).
- **diminuto_log_setmask** disables all logging if the variable is empty (`C61_empty_refuted`), and drops the high bits of a long, so that 0x100000000 disables it too (`C61_wide_refuted`).
- **diminuto_log_importmask** disables all logging if the file begins with a comment or an empty line (`C61_comment_refuted`).
- **diminuto_log_vwrite** compares the int returned by write(2) with a size_t, so that -1 is greater than the total: each failure, EINTR included, ends the record as if it had been written, and it is not counted as lost (`C62_interrupted_refuted`). The branches for errors are dead code.
- **diminuto_phex_emit** with newlines passed on loses the second of two newlines and one that follows a line break (`C64_newline_lost_refuted`), and may make a line one character longer than the limit (`C64_newline_width_refuted`); the phex program leaves the last line open if its last octet began it (`C64_last_newline_refuted`). A NUL before an octal digit does not read back (`C64_round_trip_refuted`).
- **diminuto_dump_generic** prints nothing at the top of the address space, because the rounding wraps (`C65_top_refuted`); a line size that is not a power of two is not aligned and may add a line without data (`C65_unaligned_refuted`). Its address format is for an unsigned int but is given a uintptr_t.
- **diminuto_meter_events** makes the peak infinite for good after two measurements in one tick (`C66_infinite_peak`), and no longer keeps burst and count after an overflow (`C66_overflow_burst_refuted`). The average of a meter without events is 0/0.
- **diminuto_ipcl_source** and the local consumers cut a path at 108 octets without notice, although diminuto_local_t has 255: two long paths are one socket (`C67_path_refuted`).
- **diminuto_delay** with 2^63 ticks or more passes a negative time to the kernel, which refuses it: no delay at all (`C68_refused`).
- **diminuto_daemon / _service** tell the caller of a failure although the daemon runs, if SIGCHLD is ignored (`C69_ignored_refuted`), or if the first child is killed after it forked. diminuto_system returns 0 if exec fails. setsid(2) is called after the second fork, so the daemon is a session leader and may acquire a controlling terminal.
- **diminuto_daemon_sanitize** leaves descriptors from 1024 (FD_SETSIZE) on open (`C70_high_refuted`). diminuto_daemon_redirect uses a FILE after fclose(3) if the stream has another descriptor, and opens streams always for reading, so that a null stdout stays null and is then used (`C70_streams_refuted`). If open(2) fails the first three descriptors silently stay what they were.
- **diminuto_map_map** maps less than was asked for if length and offset wrap (`C72_wrap_refuted`). **diminuto_map_minimum** returns 0 if the file cannot be opened, and closes the descriptor twice if fclose(3) fails (`C72_minimum_refuted`).
- **diminuto_ipc4_interface**, **diminuto_ipc6_interface**: an address 0.0.0.0 or :: ends the list early for a reader (`C73_zero_refuted`). malloc(3) is not checked.
- **diminuto_ipc4_address** copies from h_addr_list[0] although that may be null (`C73_address4_refuted`).
- **diminuto_ipc_port** takes "-18446744073709551615" for port 1 (`C74_negative_refuted`). **diminuto_ipc_port2string** truncates silently (`C74_truncated_refuted`).
- **diminuto_inet_checksum** loses carries from 131076 octets on (`C75_size_refuted`).
- **diminuto_ping4_datagram_receive** does not compare the length of the header in the packet with what was received: the size wraps and it reads outside the buffer (`C76_header_refuted`). Its result subtracts 20 whatever that length is. **diminuto_ping6_datagram_receive** tells an elapsed time for replies too short to contain one (`C76_elapsed6_refuted`).
- `diminuto_line_parse` takes a second sign and a negative number: `/d:--18446744073709551615` is line 1, active low (`C77_negative_refuted`).
- `diminuto_line_open_generic` refuses 64 lines although there is room for them in a request (`C77_lines_refuted`), and offsets of 64 and more, which devices may have.
- `diminuto_line_put` of -1 works and returns -1, the result of a failure (`C77_put_refuted`).
- `diminuto_line_find` cuts a path that is longer than the buffer without telling (statement of `C77_find`).
- `diminuto_pin_close` returns the stream that it closed if fclose fails; closing that is closing it twice (`C78_close_refuted`).
- The test for a name that is too long in `diminuto_pin_configure_generic` is never true; names are cut (`C78_length_refuted`).
- `diminuto_pin_configure_generic` ignores its argument `delay` and uses the global (`C78_delay_refuted`).
- `diminuto_pin_put` takes a short write for a success (statement of `C78_put`).
- `diminuto_i2c_set` sends the register and the data as two messages; a device that takes the first octet of a message for a register does not get the data (`C79_set_refuted`, for devices as in I2cSpec).
- `diminuto_i2c_open` cuts the name of buses from 100 on: bus 100 is bus 10 (`C79_bus_refuted`).
- The driver checks the offset but not the width: up to eight octets beyond the block can be read and written (`C80_block_refuted`).
- `DIMINUTO_MMDRIVER_SET` sets bits outside of the mask (`C80_mask_refuted`).
- An unknown command without data makes the driver use an operation that was never filled in (`C80_command_refuted`).
- `diminuto_kernel_map` and `diminuto_kernel_unmap` release one octet less than was reserved, so a block that is mapped exclusively is never released (`C81_release_refuted`).
- If its proc entry cannot be made, the driver leaves its misc device registered (`C81_module_refuted`).
- `getubenv NAME` prints the value of a variable whose keyword is only the beginning of NAME (`C82_name_refuted`).
- `getubenv` uses a null pointer for a variable without `=` and memory beyond the environment for one without a NUL, although the checksum is right (`C82_format_refuted`).
- `wipe` reports a mismatch at an offset mirrored within its block: the count that is left is used instead of the count that is done (`C83_offset_refuted`).
- `shaper -p P -s S` without `-m` does not use P, even if S is higher: the peak rate asked for may be exceeded (`C84_peak_refuted`).
- `shaper` without any rate passes one octet per second (`C84_default_refuted`); `shaperbuffered` passes all.
- `shaper` goes on after a write that was cut short, so octets in the middle are lost and the exit code is 0 (`C84_short_refuted`).
- `shaperbuffered -l` loses the rest of a line after a NUL, and ends with an error at a line that begins with one (`C85_nul_refuted`); with `-b 1` it passes nothing (`C85_size_refuted`).
- C86: a return from inside a critical or uninterruptible section is undefined (it skips the pop of the cleanup handler), and from a serialized one leaves the spin lock taken (`C86_return_refuted`); a break in a section ends the section only, not a loop around it (`C86_break`); SIGKILL and SIGSTOP may be given and are silently not blocked (`C86_unblockable_refuted`).
- C87: a thread cancelled in a serialized section leaves the spin lock taken for ever, since unlike the critical section it pushes no cleanup handler (`C87_spin_refuted`).
- C88: a number of more than 32 bits whose low 32 bits are zero means no: the result of strtol is stored in an int32_t (`C88_large_refuted`).
- C89: swapping an object with itself makes it zero (`C89_swap_refuted`).
- C90: diminuto_module_handle gives dlopen RTLD_NOLOAD with neither RTLD_LAZY nor RTLD_NOW, which glibc refuses, so that it never finds a module (`C90_handle_refuted`); unloading by force does not return for a module that is never removed (`C90_force_refuted`).
- C92_zero_refuted: dec and its other names convert an empty string, and any string that starts with white space and no number (" x"), to zero with exit status zero. C92_long_refuted: a line of standard input of 63 characters or more is taken for several numbers.
- C94_bounds_refuted: memtool does not compare the offset with the length of the region: an access past it is undefined. C94_address_refuted: -a without -l is ignored, and the offset is used as the address. C94_region_refuted: -l 0 after a region was used makes the next access one to the start of that region whatever its offset. C94_last_refuted: -t and -f do not ask about the last result but about the last number of any option, offsets and masks included. C94_bit_refuted: -S and -C with a bit past the width do nothing, or are undefined shifts, without an error.
- C95_nul_refuted: the collapse utility drops an argument whose first octet is a NUL ("\\0abc") entirely, and exits with zero.
- bin/dump.c: a hyphen given twice reads the standard input once; the address is printed by a format for unsigned int, so that past 4 GiB it repeats (C65, C96).
- C97_string_refuted: diminuto_environment_get() returns a pointer into the environment after it has left its section, so that its caller may read the string while another thread changes it.
- `renametool` has no way to say that an argument is not an option: a file named `-x` can only be named by another path (`C98_dash_refuted`).
- `mmdrivertool -u N` waits for N nanoseconds and not microseconds (`C99_wait_refuted`); -t and -f before a read of 64 bits look at octets that were never initialized (`C99_junk_refuted`); -S and -C with 64 or more are undefined (`C99_bit_refuted`); an option that does not exist prints the usage but the rest is carried out and the exit status may be 0 (`C99_unknown_refuted`).
- C100_wrap_refuted: gpiotool passes an unsigned 64-bit number as an int, so pin 4294967300 is pin 4.
- C100_exported_refuted: gpiotool leaves a pin exported if its direction cannot be set or its value not be opened, because diminuto_pin_unused does nothing without a stream.
- C100_empty_refuted: gpiotool takes an empty argument for pin 0.
- C101_zone_refuted: juliet prints the seconds beyond the hours where the minutes of the time zone should be: +05:1800 for half past five.
- C101_error_refuted: elapsedtime and epochtime compare the time with zero and not with the error value, so that if the clock cannot be read they print -9223372036 and exit with zero.
- C101_range_refuted: elapsedsleep with a delay of 9223372037 seconds or more is undefined behaviour (signed overflow), and with a unit that does not divide a second it sleeps for another time.
- C102_rest_refuted: framertool never sends what is after the last newline of its input; and the rest of a line that is longer than its buffer is dropped without a message.
- C103_stale_refuted: diminuto_realtime_is_supported_fp tells the end of the file from an error by errno, which it never clears, so that a blank file is an error if errno was not zero beforehand; and a number beyond the range of an int is undefined behaviour.
- C102_lost_refuted: if framertool cannot write a frame to its output it does not reset the framer, so that the frame is written again upon the next octet from the device, and the frame which that octet begins is lost.
